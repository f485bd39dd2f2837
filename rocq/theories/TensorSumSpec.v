(* Sums of products of brackets, and their values. *)
From Coq Require Import Ascii String.
From Coq Require Import List ZArith Bool.
From Verif Require Import Base Fld Phase Compute Str Text TextSpec TensorSpec.
Import ListNotations.
Open Scope Z_scope.

Section Sums.
Context {K : Fld} (s : ps K).
(* a bracket, whether it has a massive end, how it is written, and its value: that of the legs the
   ends stand for, with a sign for each massive end of a square bracket *)
Inductive bracket : bool -> pystr -> K -> Prop :=
| angle_bracket i i' t j j' u p q v : angle_open p -> angle_close q -> end_text lower i i' t -> end_text lower j j' u -> end_in s i i' -> end_in s j j' ->
    compute s (IA2 i' j') = Ok (VS v) -> bracket (negb ((i =? i') && (j =? j'))) (opening p ++ t ++ lit "|" ++ u ++ closing q) v
| square_bracket i i' t j j' u v : end_text upper i i' t -> end_text upper j j' u -> end_in s i i' -> end_in s j j' ->
    compute s (IS2 i' j') = Ok (VS v) -> bracket (negb ((i =? i') && (j =? j'))) (lit "[" ++ t ++ lit "|" ++ u ++ lit "]") (spin_sign i i' * spin_sign j j' * v)%fld.
Inductive product : bool -> pystr -> K -> Prop :=
| p_one m t v : bracket m t v -> product m t v
| p_times m t v m' u w : product m t v -> bracket m' u w -> product (m || m') (t ++ lit "*" ++ u) (v * w)%fld.
Inductive total : bool -> pystr -> K -> Prop :=
| t_one m t v : product m t v -> total m t v
| t_add m t v m' u w : total m t v -> product m' u w -> total (m || m') (t ++ lit "+" ++ u) (v + w)%fld
| t_minus m t v m' u w : total m t v -> product m' u w -> total (m || m') (t ++ lit "-" ++ u) (v - w)%fld.
End Sums.
