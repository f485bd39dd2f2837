(* The lists that Invariants derives from its families. *)
From Coq Require Import List ZArith.
From Verif Require Import Base Str Gen.
Import ListNotations.

(* Invariants.full_minus_4_brackets, invariants.py:109-111 *)
Definition full_minus_4_brackets (i : invs) : list pystr :=
  invs_2 i ++ invs_3 i ++ invs_5 i ++ invs_s i ++ invs_D i ++ invs_O i ++ invs_P i ++ invs_tr5 i.
(* Invariants.invs_N, invariants.py:113-115 *)
Definition invs_N (i : invs) : list pystr := invs_3 i ++ invs_4 i ++ invs_5 i.
