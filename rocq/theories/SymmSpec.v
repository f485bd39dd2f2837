(* Permutations of legs as functions, independent of strings and sorting. *)
From Coq Require Import List ZArith Bool Permutation.
From Verif Require Import Base Fld Particle Index Phase.
Import ListNotations.
Open Scope Z_scope.

(* the list of the values of a permutation of 1..n *)
Definition is_perm (n : nat) (l : list Z) : Prop := Permutation l (upto n).
(* its value at a leg; other numbers stay where they are *)
Definition papp (l : list Z) (k : Z) : Z :=
  if (1 <=? k) && (k <=? Z.of_nat (length l)) then nth (Z.to_nat (k - 1)) l 0 else k.
(* p after q *)
Definition compose (p q : list Z) : list Z := map (papp p) q.
(* pairwise different momenta *)
Definition different {K : Fld} (s : ps K) : Prop := NoDup (map (fun p => r2 p) s).
