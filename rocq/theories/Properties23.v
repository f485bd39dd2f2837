(* C78: expressions at a point. *)
From Coq Require Import Ascii String.
From Coq Require Import List ZArith Bool Lia.
From Verif Require Import Base Fld FldInst Particle Phase Compute Symm Str Parse ParseSpec ExprSpec Text TextThm7 Properties04 Properties13.
Import ListNotations.
Open Scope Z_scope.

(* C78: a point evaluates the text of an expression to the value of the expression in the invariants
   of the point, however it is spaced and whichever brackets and minus signs are used. *)
Theorem C78_value : forall (K : Fld) (s : ps K) A f (e : expr) (v : K) (u : pystr),
  sum e -> ~ clash (symbols e) -> exact e -> (forall a, e <> Inv a) -> written_as (written e) u -> ~ In 10 u ->
  value_of (at_point s) e = Some v ->
  exists w, compute_text (S (S f)) s A u = Ok (ANum w) /\ to_K w = Ok v /\ (integral e = true -> exists z, w = VInt z).
Proof. intros K. exact compute_expr. Qed.
Print Assumptions C78_value.
(* a single invariant is not taken for an expression *)
Theorem C78_invariant : forall (K : Fld) (s : ps K) A f a (v : K), inv_ok a -> at_point s a = Some v ->
  compute_text (S f) s A (written (Inv a)) = Ok (AVal (VS v)).
Proof. intros K s A f a v H M. assert (E : written (Inv a) = inv_text a) by apply app_nil_r. rewrite E. exact (compute_word s A f a v H M). Qed.
Print Assumptions C78_invariant.
(* 2⟨1|2⟩[2|1]/s_12-⟨1|2+3|4]^2tr5(1|2|3|4) written with spaces, < and >, and a longer minus sign *)
Definition chain3 : ParseSpec.inv := WChain true 1 (Slot false 2 [(false, 3)]) [] 4 false.
Definition trace3 : ParseSpec.inv := WTr5 (Slot false 1 []) [Slot false 2 []; Slot false 3 []; Slot false 4 []].
Definition e3 : expr :=
  Sub (Div (Jux (Jux (Num 2) (Inv (Ang 1 2))) (Inv (Sq 2 1))) (Inv (Man 12))) (Jux (Pow (Inv chain3) (Num 2)) (Inv trace3)).
Definition e3_text : pystr := lit "2 <1|2>[2|1] / s_12 " ++ [8722; 32; 10216] ++ lit "1|2+3|4]^2 tr5(1|2|3|4)".
Lemma e3_sum : sum e3.
Proof.
  unfold e3, chain3, trace3. repeat first
    [ apply sum_add | apply sum_sub | apply sum_term | apply term_mul | apply term_div | apply term_jux | apply term_factor | apply factor_neg | apply factor_pos
    | apply factor_pow | apply factor_atom | apply atom_num; lia | apply atom_inv; cbn; unfold label; repeat split; repeat constructor; try lia; try discriminate; fail | apply atom_par ].
  - apply (touch_num_inv []).
  - apply (touch_inv_inv [TNum 2]).
  - apply (touch_num_inv [ParseSpec.TInv chain3; TCaret]).
Qed.
Lemma e3_as : written_as (written e3) e3_text.
Proof.
  let t := eval vm_compute in (written e3) in change (written e3) with t. let t := eval vm_compute in e3_text in change e3_text with t.
  repeat first [apply wa_nil|apply wa_same|apply wa_lt|apply wa_gt|apply wa_minus|apply wa_space; [left; reflexivity|]].
Qed.
Lemma num_is (r : result (answer GF13)) v : match r with Ok (ANum w) => match to_K w with Ok x => feqb x v | Err _ => false end | _ => false end = true -> exists w, r = Ok (ANum w) /\ to_K w = Ok v.
Proof. destruct r as [[x|w]|]; try discriminate. destruct (to_K w) as [x|] eqn:E; [|discriminate]. intros H. exists w. split; [reflexivity|]. rewrite E. f_equal. apply (feqb_ok GF13), H. Qed.
Example C78_ex : sum e3 /\ ~ clash (symbols e3) /\ exact e3 /\ (forall a, e3 <> Inv a) /\ written_as (written e3) e3_text /\ ~ In 10 e3_text /\
  value_of (at_point ex6) e3 = Some (g13 7) /\ exists w, compute_text 2 ex6 [] e3_text = Ok (ANum w) /\ to_K w = Ok (g13 7).
Proof.
  split; [exact e3_sum|]. split; [apply clashb_ok; vm_compute; reflexivity|]. split; [unfold e3; cbn [exact integral int_value andb]; repeat split; discriminate|]. split; [discriminate|]. split; [exact e3_as|].
  split; [vm_compute; intuition discriminate|]. split; [apply val_is; vm_compute; reflexivity|apply num_is; vm_compute; reflexivity].
Qed.
