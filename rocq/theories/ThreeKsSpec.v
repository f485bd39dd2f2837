(* Specification vocabulary for the masses of three momenta. *)
From Coq Require Import List ZArith.
From Verif Require Import Base Fld.
Import ListNotations.

Section Spec.
Context {K : Fld}.
Open Scope fld_scope.
(* the Kallen function of three squared masses *)
Definition kallen (x y z : K) : K := x * x + y * y + z * z - 2 * x * y - 2 * y * z - 2 * z * x.
(* its factors at the masses themselves: the thresholds *)
Definition thresholds (a b c : K) : list K := [a + b + c; a + b - c; a - b + c; a - b - c].
End Spec.
