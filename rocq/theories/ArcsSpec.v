(* What "three arcs of the legs" means, without reference to the code. *)
From Coq Require Import List ZArith Permutation.
From Verif Require Import Base Index.
Import ListNotations.
Open Scope Z_scope.

(* every leg of the list is followed by the cyclically next one *)
Definition consecutive (n : Z) (l : list Z) : Prop :=
  forall l1 x y l2, l = l1 ++ x :: y :: l2 -> y = x mod n + 1.

(* the lists A, B, C cut the circle 1..n into three arcs starting at i, j and k *)
Definition three_arcs (n : nat) (i j k : Z) (A B C : list Z) : Prop :=
  hd_error A = Some i /\ hd_error B = Some j /\ hd_error C = Some k /\
  consecutive (Z.of_nat n) A /\ consecutive (Z.of_nat n) B /\ consecutive (Z.of_nat n) C /\
  Permutation (A ++ B ++ C) (upto n).
