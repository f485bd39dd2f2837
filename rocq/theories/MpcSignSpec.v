(* What real momenta imply for invariants and brackets. *)
From Coq Require Import List ZArith Bool.
From Verif Require Import Base Fld Particle MpcRandom MpcRandomSpec.
Import ListNotations.
Section Spec.
Context {K : Fld} (X : Cx K).
Open Scope fld_scope.
(* the complex conjugate *)
Definition conj (x : K) : K := re X x - ci X * im X x.
(* the factor between the conjugate of the angle spinor of a momentum and its square spinor: the sign
   of the energy for the symmetric choice of spinors *)
Definition factor (cv : convention) (v : v4 K) (lam : K) : Prop :=
  match cv with
  | Symmetric => (positive X (c0 v) /\ lam = 1) \/ (positive X (- c0 v) /\ lam = - (1))
  | Asymmetric => lam * (c0 v + c3 v) = 1
  end.
Definition not_negative (x : K) : Prop := x = 0 \/ positive X x.
End Spec.
