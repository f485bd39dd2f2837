(* Legs that stand next to each other in the cyclic order 1, ..., n. *)
From Coq Require Import List ZArith Sorted Permutation.
From Verif Require Import GenSpec Gen.
Import ListNotations.
Open Scope Z_scope.

(* the leg that is j places after the leg k; j may be negative *)
Definition leg_at (n k j : Z) : Z := (k - 1 + j) mod n + 1.
(* the legs of X stand next to each other: they are m + 1 legs from the leg k on *)
Definition consecutive (n : Z) (X : list Z) : Prop :=
  exists k m, 1 <= k <= n /\ 0 <= m /\ forall x, In x X <-> exists j, 0 <= j <= m /\ x = leg_at n k j.
(* the run of m legs from the leg k on, in this order *)
Definition run (n k : Z) (m : nat) : list Z := map (fun j => leg_at n k (Z.of_nat j)) (seq 0 m).
(* what a three bracket ⟨i|S|j] of the restricted list is: its legs, or its ends and the legs that
   it has not, stand next to each other *)
Definition near_three (n : Z) (b : brk) : Prop :=
  exists S T, b_mid b = [S] /\ shares_out n (b_i b) (b_j b) S T /\ (consecutive n (b_i b :: b_j b :: S) \/ consecutive n (b_i b :: b_j b :: T)).
(* a four bracket of the restricted list has two parts of two legs, and each part and the end
   beside it are consecutive *)
Definition near_four (n : Z) (b : brk) : Prop :=
  exists w x y z, b_mid b = [[w; x]; [y; z]] /\ consecutive n [b_i b; w; x] /\ consecutive n [b_j b; y; z].
(* the legs other than i, in the order in which they follow i, cut into three parts of at
   least two legs *)
Definition three_runs (n i : Z) (A B C : list Z) : Prop :=
  exists p q r : nat, (2 <= p)%nat /\ (2 <= q)%nat /\ (2 <= r)%nat /\ Z.of_nat (p + q + r) = n - 1 /\
  A = run n (leg_at n i 1) p /\ B = run n (leg_at n i (1 + Z.of_nat p)) q /\ C = run n (leg_at n i (1 + Z.of_nat (p + q))) r.
(* any order of the elements of a set *)
Definition keeps_legs (iset : list Z -> list Z) : Prop := forall l, Permutation (iset l) l.
