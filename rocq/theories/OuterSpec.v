(* Sums of matrices made of spinors, as they are written, and their values. *)
From Coq Require Import Ascii String.
From Coq Require Import List ZArith Bool.
From Verif Require Import Base Fld Phase Compute Str Text TextSpec TensorSpec TensorSumSpec.
Import ListNotations.
Open Scope Z_scope.

Section Outer.
Context {K : Fld} (s : ps K).
(* a column |i> or |i], and a row <j| or [j|, each with its value *)
Inductive column : pystr -> v2 K -> Prop :=
| angle_column i q a : 0 <= i -> angle_close q -> compute s (IAd i) = Ok (VCol a) -> column (lit "|" ++ dec i ++ closing q) a
| square_column i a : 0 <= i -> compute s (ISu i) = Ok (VCol a) -> column (lit "|" ++ dec i ++ lit "]") a.
Inductive row : pystr -> v2 K -> Prop :=
| angle_row j p b : 0 <= j -> angle_open p -> compute s (IAu j) = Ok (VRow b) -> row (opening p ++ dec j ++ lit "|") b
| square_row j b : 0 <= j -> compute s (ISd j) = Ok (VRow b) -> row (lit "[" ++ dec j ++ lit "|") b.
Definition times_all (l : list K) : K := fold_right fmul f1 l.
Definition plain_bracket (x : pystr * K) : Prop := bracket s false (fst x) (snd x).
(* a column, a row directly behind it, and brackets of massless spinors before and behind them *)
Inductive matrix_term : pystr -> m2 K -> Prop :=
| a_term pre t a u b post : Forall plain_bracket pre -> column t a -> row u b -> Forall plain_bracket post ->
    matrix_term (concat (map (fun x => fst x ++ lit "*") pre) ++ (t ++ u) ++ concat (map (fun x => lit "*" ++ fst x) post))
                (mscale (times_all (map snd pre) * times_all (map snd post))%fld (M2 (e0 a * e0 b) (e0 a * e1 b) (e1 a * e0 b) (e1 a * e1 b))%fld).
Inductive matrix_sum : pystr -> m2 K -> Prop :=
| s_one t m : matrix_term t m -> matrix_sum t m
| s_add t m u n : matrix_sum t m -> matrix_term u n -> matrix_sum (t ++ lit "+" ++ u) (madd m n)
| s_minus t m u n : matrix_sum t m -> matrix_term u n -> matrix_sum (t ++ lit "-" ++ u) (msub m n).
End Outer.
(* |i]<i|+|j]<j|+..., the momentum of some massless legs *)
Definition slash_text (i : Z) : pystr := lit "|" ++ dec i ++ lit "]" ++ [10216] ++ dec i ++ lit "|".
Definition momentum_text (i : Z) (l : list Z) : pystr := slash_text i ++ concat (map (fun j => lit "+" ++ slash_text j) l).
