(* Specification vocabulary for phase space points. *)
From Coq Require Import List ZArith Bool.
From Verif Require Import Base Fld Particle ParticleSpec Index Phase.
Import ListNotations.

Section Spec.
Context {K : Fld}.
Open Scope fld_scope.
Implicit Types (s : ps K) (p q : particle K).

(* a particle with both spinors, all representations consistent and massless *)
Definition massless_ok p : Prop := consistent p /\ reproduces p.

Definition untouched (s s' : ps K) (A B : Z) : Prop :=
  length s' = length s /\ (forall k, k <> A -> k <> B -> getitem s' k = getitem s k).

(* the square (axis 1) or angle (otherwise) product that must not vanish *)
Definition pivot (axis : Z) (pA pB : particle K) : option K :=
  if Z.eqb axis 1 then match l_d pA, l_u pB with Some a, Some b => Some (vdot a b) | _, _ => None end
  else match r_u pA, r_d pB with Some a, Some b => Some (vdot a b) | _, _ => None end.


(* a subset of the numbers closed under the field operations, e.g. the reals *)
Record subfield (R : K -> Prop) : Prop := {
  sf_0 : R 0; sf_1 : R 1;
  sf_add : forall x y, R x -> R y -> R (x + y);
  sf_sub : forall x y, R x -> R y -> R (x - y);
  sf_mul : forall x y, R x -> R y -> R (x * y);
  sf_div : forall x y, R x -> R y -> y <> 0 -> R (x / y)
}.
Definition v4_in (R : K -> Prop) (v : v4 K) : Prop := R (c0 v) /\ R (c1 v) /\ R (c2 v) /\ R (c3 v).

Definition fresh p : Prop := consistent p /\ reproduces p /\ lsq p = 0.
Definition physical s : Prop := total_mom s = mzero /\ Forall fresh s.
Definition sample_ok (n : nat) (sample : option (Z * Z)) : Prop :=
  match sample with
  | Some (A, B) => (1 <= A <= Z.of_nat n /\ 1 <= B <= Z.of_nat n)%Z /\ A <> B
  | None => (n < 2)%nat
  end.

End Spec.
