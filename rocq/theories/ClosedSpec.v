(* Specification vocabulary for Closed.v: the corners of the three-mass triangle and the sum
   of legs that crosses it. *)
From Coq Require Import List ZArith Bool Permutation.
From Verif Require Import Base Fld Particle ParticleSpec Index Phase PhaseSpec Arcs ArcsSpec Compute ComputeSpec SetOne SetSpec.
Import ListNotations.

(* Delta_ij|kl|mn names its corners, Delta_ijk the three arcs that begin at i, j and k *)
Definition corners_of (n : nat) (t : target) (cs : list (list Z)) : Prop :=
  t = TInv (IDelta cs) \/
  exists i j k l0 l1 l2, t = TInv (IDelta3 [i; j; k]) /\ three_arcs n i j k l0 l1 l2 /\ cs = [l0; l1; l2].
(* the sum is over the legs of the first corner and the first leg of the second, or over all others *)
Definition crosses (n : nat) (S : list Z) (A B C : Z) : Prop :=
  Permutation S [A; B; C] \/ (S <> [] /\ Permutation (S ++ [A; B; C]) (upto n)).

Section Spec.
Context {K : Fld}.
Open Scope fld_scope.
(* the components of a leg, as they are given to the closed formulas *)
Definition components (s : ps K) (k : Z) (a b c d : K) : Prop :=
  exists p, getitem s k = Ok p /\ r_d p = Some (V2 a b) /\ l_d p = Some (V2 c d).
End Spec.
