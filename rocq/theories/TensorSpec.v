(* How brackets with massive spinors are written. *)
From Coq Require Import Ascii String.
From Coq Require Import List ZArith.
From Verif Require Import Base Fld Phase Compute Str Text TextSpec.
Import ListNotations.
Open Scope Z_scope.

(* one end of a bracket: a label alone means the leg of that label; a label with a spin index means
   the leg after it *)
Inductive end_text (marks : pystr) (i : Z) : Z -> pystr -> Prop :=
| massless_end : end_text marks i i (dec i)
| massive_end k : In k marks -> end_text marks i (i + 1) (dec i ++ [k]).
(* the spin indices of angle brackets and of square brackets *)
Definition lower : pystr := lit "_d".
Definition upper : pystr := lit "^u".
(* the legs of an end are in the point *)
Definition end_in {A} (s : list A) (i i' : Z) : Prop := 1 <= i /\ i' <= Z.of_nat (length s).
(* an upper index is lowered with a sign *)
Definition spin_sign {K : Fld} (i i' : Z) : K := if i =? i' then f1 else fopp f1.
(* the legs of a sum of momenta are in the point *)
Definition legs_in {A} (s : list A) (e : entry) : Prop := 1 <= fst e <= Z.of_nat (length s) /\ Forall (fun x => 1 <= snd x <= Z.of_nat (length s)) (snd e).
(* the last label of a sum of momenta *)
Definition last_label (e : entry) : Z := last (map snd (snd e)) (fst e).
(* the label of a sum next to the massless end, when the other end is massive, has one digit, and a
   single label is not in round brackets *)
Definition single_bare (e : entry) (t : pystr) : Prop := snd e = [] -> t = entry_text e.
Definition mixed_ok (i i' j j' : Z) (e : entry) (t : pystr) : Prop :=
  (i = i' -> j <> j' -> fst e <= 9 /\ single_bare e t) /\ (i <> i' -> j = j' -> last_label e <= 9 /\ single_bare e t).
