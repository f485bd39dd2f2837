(* Names of invariants, and what a complete list without repetitions is. *)
From Coq Require Import Ascii String.
From Coq Require Import List ZArith Bool Sorted.
From Verif Require Import Str.
Import ListNotations.
Open Scope Z_scope.

(* how often a string is in a list *)
Definition occurrences (t : pystr) (l : list pystr) : nat := count_occ (list_eq_dec Z.eq_dec) l t.
(* ⟨i|j⟩ and [i|j] *)
Definition angle_name (i j : Z) : pystr := 10216 :: dec i ++ 124 :: dec j ++ [10217].
Definition square_name (i j : Z) : pystr := 91 :: dec i ++ 124 :: dec j ++ [93].
(* a set of legs, as the ascending list of its elements *)
Definition legset (n : Z) (I : list Z) : Prop := StronglySorted Z.lt I /\ Forall (fun x => 1 <= x <= n) I.
(* the other legs: J has exactly the legs that I has not *)
Definition other_legs (n : Z) (I J : list Z) : Prop := legset n J /\ forall x, 1 <= x <= n -> (In x J <-> ~ In x I).
Definition s_name (I : list Z) : pystr := lit "s_" ++ concat (map dec I).
(* three adjacent corners, each of at least two legs, of the cyclic order 1, ..., n: they
   begin at the legs a < b < c *)
Definition three_corners (n a b c : Z) : Prop := 1 <= a /\ a + 2 <= b /\ b + 2 <= c /\ c <= n /\ c + 2 <= a + n.
Definition delta_name (a b c : Z) : pystr := 916 :: 95 :: dec a ++ dec b ++ dec c.
Definition tr5_name (I : list Z) : pystr := lit "tr5_" ++ concat (map dec I).
(* S and T are sets of legs that share out the legs other than i and j *)
Definition shares_out (n i j : Z) (S T : list Z) : Prop :=
  legset n S /\ legset n T /\ forall x, (In x S -> x <> i /\ x <> j) /\ (In x T -> x <> i /\ x <> j) /\ (1 <= x <= n -> x <> i -> x <> j -> (In x T <-> ~ In x S)).
