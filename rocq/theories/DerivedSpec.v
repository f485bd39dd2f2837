(* Which strings are brackets, by their characters. *)
From Coq Require Import List ZArith Bool.
From Verif Require Import Base Str.
Import ListNotations.
Open Scope Z_scope.

(* the number of parentheses ( in a string: that of the sums between the ends of a bracket *)
Definition sums (t : pystr) : nat := length (filter (Z.eqb 40) t).
(* begins with ⟨ or [ *)
Definition bracketed (t : pystr) : bool := match t with c :: _ => (c =? 10216) || (c =? 91) | [] => false end.
(* ⟨ or [ and two sums, one or more *)
Definition four_bracket (t : pystr) : bool := bracketed t && (sums t =? 2)%nat.
Definition long_bracket (t : pystr) : bool := bracketed t && (1 <=? sums t)%nat.
(* Δ_12|347|56 *)
Definition the_gram : pystr := [916; 95; 49; 50; 124; 51; 52; 55; 124; 53; 54].
