(* Spaces, other brackets and other minus signs in expressions. *)
From Coq Require Import Ascii String.
From Coq Require Import List ZArith Bool Lia.
From Verif Require Import Base Fld Str Symm Parse ParseSpec ParseStars ParseLex ParseTree ParseFold ParseEval.
Import ListNotations.
Open Scope Z_scope.

Definition swap (c : Z) (new : pystr) (x : Z) : pystr := if x =? c then new else [x].
Lemma sub_one c new s : forall b, re_sub (m_lit [c] new) b 0 s = flat_map (swap c new) s.
Proof.
  induction s as [|x s IH]; intros b; [reflexivity|]. cbn [re_sub flat_map]. unfold m_lit at 1, swap at 1. cbn [starts]. rewrite andb_true_r, Z.eqb_sym. destruct (x =? c) eqn:E; cbn [length Nat.pred app].
  - rewrite IH. reflexivity.
  - rewrite IH. reflexivity.
Qed.
Definition conv (x : Z) : Z := if x =? 8722 then 45 else if x =? 60 then 10216 else if x =? 62 then 10217 else x.
Definition norm (u : pystr) : pystr := filter (fun x => negb ((x =? 10) || (x =? 32))) (map conv u).
Definition odd (x : Z) : Prop := x = 8722 \/ x = 60 \/ x = 62 \/ x = 10 \/ x = 32.
Lemma conv_id x : ~ odd x -> conv x = x.
Proof. unfold odd, conv. intros H. rewrite !(proj2 (Z.eqb_neq _ _)) by lia. reflexivity. Qed.
Lemma norm_as t u : written_as t u -> (forall x, In x t -> ~ odd x) -> norm u = t.
Proof.
  induction 1 as [|c t u H IH|c t u C H IH|t u H IH|t u H IH|t u H IH]; intros N; [reflexivity| | | | |]; unfold norm in *; cbn [map filter].
  - assert (O := N c (or_introl eq_refl)). rewrite (conv_id c O). unfold odd in O. rewrite !(proj2 (Z.eqb_neq c _)) by lia. cbn [orb negb]. rewrite IH by (intros; apply N; right; assumption). reflexivity.
  - destruct C as [-> | ->]; cbn; apply IH, N.
  - cbn. rewrite IH by (intros; apply N; right; assumption). reflexivity.
  - cbn. rewrite IH by (intros; apply N; right; assumption). reflexivity.
  - cbn. rewrite IH by (intros; apply N; right; assumption). reflexivity.
Qed.
Lemma as_chars t u x : written_as t u -> In x u -> In x t \/ odd x.
Proof.
  unfold odd. induction 1 as [|c t u H IH|c t u C H IH|t u H IH|t u H IH|t u H IH]; intros I; [destruct I| | | | |]; destruct I as [<-|I]; try (right; tauto); try (left; left; reflexivity); destruct (IH I) as [J|J]; auto; left; right; exact J.
Qed.
Lemma flat_swap c k u : flat_map (swap c [k]) u = map (fun x => if x =? c then k else x) u.
Proof. induction u as [|x u IH]; [reflexivity|]. cbn [flat_map map]. rewrite IH. unfold swap. destruct (x =? c); reflexivity. Qed.
Lemma flat_drop c u : flat_map (swap c []) u = filter (fun x => negb (x =? c)) u.
Proof. induction u as [|x u IH]; [reflexivity|]. cbn [flat_map filter]. rewrite IH. unfold swap. destruct (x =? c); reflexivity. Qed.
Lemma drop_two u : filter (fun x => negb (x =? 32)) (filter (fun x => negb (x =? 10)) u) = filter (fun x => negb ((x =? 10) || (x =? 32))) u.
Proof. induction u as [|x u IH]; [reflexivity|]. cbn [filter]. destruct (x =? 10); cbn [negb orb filter]; [exact IH|]. destruct (x =? 32); cbn [negb]; [exact IH|]. rewrite IH. reflexivity. Qed.
Lemma clean_norm u : ~ In 92 u -> ~ In 123 u -> parse_clean u = re_sub m_end [] 0 (norm u).
Proof.
  intros N1 N2. unfold parse_clean. cbv zeta. change (lit "\scriptscriptstyle") with (92 :: lit "scriptscriptstyle"). change (lit "\frac{") with (92 :: lit "frac{"). change (lit "}+\") with [125; 43; 92]. change (lit "}{") with [125; 123].
  rewrite (sub_one 8722), flat_swap. assert (X : forall f : Z -> Z, (forall x, f x = x \/ In (f x) [45; 10216; 10217]) -> forall v k, ~ In k [45; 10216; 10217] -> ~ In k v -> ~ In k (map f v)).
  { intros f Hf v k Nk Nv I. apply in_map_iff in I. destruct I as (x & E & I). destruct (Hf x) as [H|H]; [rewrite H in E; subst; exact (Nv I)|subst; exact (Nk H)]. }
  assert (S : forall c k, In k [45; 10216; 10217] -> forall x, (if x =? c then k else x) = x \/ In (if x =? c then k else x) [45; 10216; 10217]) by (intros c k Ik x; destruct (x =? c); [right; exact Ik|left; reflexivity]).
  assert (M1 := X _ (S 8722 45 ltac:(cbn; tauto)) u 92 ltac:(cbn; lia) N1). assert (M2 := X _ (S 8722 45 ltac:(cbn; tauto)) u 123 ltac:(cbn; lia) N2). revert M1 M2.
  set (u1 := map _ u). intros M1 M2. rewrite (sub_lit (92 :: lit "scriptscriptstyle") _ 92) by (try exact M1; left; reflexivity). rewrite (sub_one 60), flat_swap.
  assert (P1 := X _ (S 60 10216 ltac:(cbn; tauto)) u1 92 ltac:(cbn; lia) M1). assert (P2 := X _ (S 60 10216 ltac:(cbn; tauto)) u1 123 ltac:(cbn; lia) M2). revert P1 P2.
  set (u2 := map _ u1). intros P1 P2. rewrite (sub_one 62), flat_swap.
  assert (Q1 := X _ (S 62 10217 ltac:(cbn; tauto)) u2 92 ltac:(cbn; lia) P1). assert (Q2 := X _ (S 62 10217 ltac:(cbn; tauto)) u2 123 ltac:(cbn; lia) P2). revert Q1 Q2.
  set (u3 := map _ u2). intros Q1 Q2. rewrite (sub_lit (92 :: lit "frac{") _ 92) by (try exact Q1; left; reflexivity). rewrite (sub_lit [125; 123] _ 123) by (try exact Q2; right; left; reflexivity). rewrite (sub_lit [125; 43; 92] _ 92) by (try exact Q1; cbn; tauto).
  rewrite !sub_one, !flat_drop, drop_two. f_equal. unfold norm, u3, u2, u1. rewrite !map_map. f_equal. apply map_ext. intros x. unfold conv. destruct (x =? 8722) eqn:E1; [reflexivity|]. destruct (x =? 60) eqn:E2; [reflexivity|]. reflexivity.
Qed.
Lemma written_chars e c : sum e -> In c (written e) -> ~ (strange c).
Proof.
  intros H I X. assert (F : Forall tok_ok (toks [] e)) by (apply toks_ok; [constructor|exact H]). apply (txt_strange false 0 (toks [] e) c X F).
  unfold written in I. change (concat (map tok_text (toks [] e))) with (txt tok_text (toks [] e)) in I. replace (txt (st false 0) (toks [] e)) with (txt tok_text (toks [] e)); [exact I|]. unfold txt. f_equal. apply map_ext. intros [|[]| | | | | | |]; reflexivity.
Qed.
Lemma odd_strange x : odd x -> strange x.
Proof. unfold odd. intros [-> | [-> | [-> | [-> | ->]]]]; strange. Qed.
Theorem parse_as e u : sum e -> written_as (written e) u -> py_parse u = py_parse (written e).
Proof.
  intros H W. assert (O : forall x, In x (written e) -> ~ odd x) by (intros x I J; exact (written_chars e x H I (odd_strange x J))).
  unfold py_parse. f_equal. f_equal. f_equal. f_equal. f_equal. f_equal. f_equal. f_equal. f_equal. f_equal.
  assert (C : parse_clean u = parse_clean (written e)); [|rewrite C; reflexivity].
  assert (N : forall k, strange k -> ~ odd k -> ~ In k u) by (intros k Sk Ok I; destruct (as_chars _ _ _ W I) as [J|J]; [exact (written_chars e k H J Sk)|exact (Ok J)]).
  rewrite clean_norm by (apply N; [strange|unfold odd; lia]). rewrite (norm_as _ _ W O).
  rewrite clean_norm by (intros I; apply (written_chars e _ H I); strange). f_equal. symmetry. assert (R : forall t, written_as t t) by (induction t; constructor; assumption). apply (norm_as _ _ (R _) O).
Qed.
Section Eval.
Context {K : Fld}.
Variable oPs : pystr -> result K.
Theorem eval_as e u : sum e -> written_as (written e) u -> py_eval oPs u = py_eval oPs (written e).
Proof. intros H W. unfold py_eval. rewrite (parse_as e u H W). reflexivity. Qed.
End Eval.
