(* The whole of _parse on sums of products of brackets with massive spinors. *)
From Coq Require Import Ascii String.
From Coq Require Import List ZArith Bool Lia.
From Verif Require Import Base Str MassesThm Regex RegexThm Parse ParseSpec ParseChars ParseWrap ParseOpen ParseVary ParseStars TensorText TensorSum.
Import ListNotations.
Open Scope Z_scope.

(* ---- texts of a few characters, with the star ---- *)
Definition given' : list Z := 42 :: given.
Definition few' : list Z := 80 :: 115 :: 39 :: 42 :: few.
Definition called' : list Z := 42 :: called.
Lemma clean_given' u : only given' u -> parse_clean u = norm u.
Proof.
  intros O. rewrite clean_norm; [apply (skip_end (given' ++ [10216; 10217])); [|reflexivity]| |].
  - intros c I. unfold norm in I. apply filter_In in I. destruct I as [I _]. apply in_map_iff in I. destruct I as (x & <- & I). destruct (O x I) as [D|D]; [left; rewrite conv_id; [exact D|]; apply is_digit_iff in D; unfold odd; lia|].
    right. cbn in D. rewrite !orb_true_iff, !Z.eqb_eq in D. repeat (destruct D as [-> |D]; [reflexivity|]). discriminate D.
  - intros I. destruct (O 92 I) as [D|D]; discriminate D.
  - intros I. destruct (O 123 I) as [D|D]; discriminate D.
Qed.
Lemma skip_braces' u : only given' u -> re_sub m_braces [] 0 u = u.
Proof. intros O. apply (pass_none _ [123] given'); [|reflexivity|reflexivity|exact O]. intros b c s N. apply braces_other, cls_no, N. Qed.
Lemma skip_mass' u : only few' u -> re_sub m_mass [] 0 u = u.
Proof. intros O. apply (pass_none _ [109; 77] few'); [|reflexivity|reflexivity|exact O]. intros b c s N. apply cls_no2 in N. apply mass_other; apply N. Qed.
(* oPs is not directly behind a letter or a digit *)
Fixpoint no_oPs (u : pystr) : Prop :=
  match u with c :: u' => is_alnum c && (match u' with d :: e :: _ => (d =? 111) && (e =? 80) | _ => false end) = false /\ no_oPs u' | [] => True end.
Lemma no_oPs_at s : no_oPs s -> forall k, (k < alnums s)%nat -> starts (lit "oPs") (skipn (S k) s) = false.
Proof.
  induction s as [|c s IH]; intros N k L; [cbn in L; lia|]. cbn [no_oPs] in N. destruct N as [N1 N2]. cbn [alnums] in L. destruct (is_alnum c) eqn:A; [|lia]. cbn [andb] in N1.
  destruct k as [|k]; [|cbn [skipn]; apply IH; [exact N2|lia]]. cbn [skipn]. destruct s as [|d [|e s]]; [reflexivity| |]; change (lit "oPs") with [111; 80; 115]; cbn [starts].
  - destruct (111 =? d); reflexivity.
  - rewrite (Z.eqb_sym 111 d), (Z.eqb_sym 80 e). destruct (d =? 111); [|reflexivity]. destruct (e =? 80); [discriminate N1|]. reflexivity.
Qed.
Lemma oPs_pass u : no_oPs u -> forall b, re_sub m_oPs b 0 u = u.
Proof.
  induction u as [|c u IH]; intros N b; [reflexivity|]. rewrite sub_step; [f_equal; apply IH, N|]. unfold m_oPs. rewrite last_none; [reflexivity|]. intros [|j] J; [lia|]. apply no_oPs_at; [exact N|lia].
Qed.
Lemma no_oPs_dec i c r : 0 <= i -> c <> 111 -> no_oPs (c :: r) -> no_oPs (dec i ++ c :: r).
Proof.
  intros Hi Hc N. assert (D := dec_numeric i Hi). revert D. generalize (dec i). intros u D. induction D as [|d u H D IH]; [exact N|]. cbn [app]. split; [|exact IH].
  apply andb_false_iff. right. destruct D as [|e u H' D]; cbn [app]; [destruct r; [reflexivity|]; rewrite (proj2 (Z.eqb_neq c 111) Hc); reflexivity|].
  assert (E : e =? 111 = false) by (apply Z.eqb_neq; intros ->; discriminate H'). destruct (u ++ c :: r); [reflexivity|]. rewrite E. reflexivity.
Qed.
Lemma no_oPs_two c d r : (d =? 111) = false -> no_oPs (d :: r) -> no_oPs (c :: d :: r). Proof. intros H N. split; [|exact N]. destruct r; [apply andb_false_r|]. rewrite H. apply andb_false_r. Qed.
Lemma no_oPs_cons c r : is_alnum c = false -> no_oPs r -> no_oPs (c :: r). Proof. intros H N. split; [rewrite H; reflexivity|exact N]. Qed.
Lemma skip_mvar' u : only few' u -> re_sub m_mvar [] 0 u = u.
Proof. intros O. apply (pass_none _ [109; 77; 956] few'); [|reflexivity|reflexivity|exact O]. intros b c s N. cbn in N. rewrite orb_false_r, !orb_false_iff, !Z.eqb_neq in N. apply mvar_other; apply N. Qed.
Lemma skip_pre' k pre u : cls few' k = false -> is_digit k = false -> only few' u -> re_sub (m_pre (k :: pre)) [] 0 u = u.
Proof.
  intros A B O. apply (sub_avoid _ [k]); [intros b c s N; apply pre_other, cls_no, N|]. intros c I. cbn. rewrite orb_false_r. apply Z.eqb_neq. intros ->. destruct (O _ I); congruence.
Qed.
Lemma skip_tr5' u : only few' u -> re_sub m_tr5 [] 0 u = u.
Proof. intros O. apply (pass_none _ [116] few'); [|reflexivity|reflexivity|exact O]. intros b c s N. apply tr5_other, cls_no, N. Qed.
Lemma skip_tr' u : only few' u -> re_sub m_tr [] 0 u = u.
Proof. intros O. apply (pass_none _ [116] few'); [|reflexivity|reflexivity|exact O]. intros b c s N. apply tr_other, cls_no, N. Qed.
Lemma skip_Dadj' u : only few' u -> re_sub m_Dadj [] 0 u = u.
Proof. intros O. apply (pass_none _ [916] few'); [|reflexivity|reflexivity|exact O]. intros b c s N. apply Dadj_other, cls_no, N. Qed.
Lemma skip_Dnon' u : only few' u -> re_sub m_Dnon [] 0 u = u.
Proof. intros O. apply (pass_none _ [916] few'); [|reflexivity|reflexivity|exact O]. intros b c s N. apply Dnon_other, cls_no, N. Qed.
Lemma skip_sqrt' u : only called' u -> re_sub (m_lit (lit "sqrt") (lit "oPs.field.sqrt")) [] 0 u = u.
Proof. intros O. apply (sub_lit _ _ 113); [cbn; tauto|]. intros I. destruct (O _ I) as [D|D]; discriminate D. Qed.
Lemma skip_rat' u : only called' u -> re_sub m_rat [] 0 u = u.
Proof. intros O. apply rat_none. intros I. destruct (O _ I) as [D|D]; discriminate D. Qed.

(* ---- the characters of a sum ---- *)
Section Only.
Variables (L : list Z) (tx : item -> pystr -> pystr).
Hypothesis Hx : forall x r, item_ok x -> only L r -> only L (tx x r).
Hypothesis Ho : cls L 43 && cls L 45 && cls L 42 = true.
Lemma only_tail l : rest_ok l -> only L (tail_text tx l).
Proof.
  intros H. induction H as [|[o x] l [H1 H2] H IH]; [intros ? []|]. cbn [tail_text]. apply only_cons; [|apply Hx; [exact H2|exact IH]].
  rewrite !andb_true_iff in Ho. destruct Ho as [[A B] C]. cbn [fst] in H1. destruct H1 as [-> |[-> | ->]]; [rewrite A|rewrite B|rewrite C]; apply orb_true_r.
Qed.
Lemma only_all x l : item_ok x -> rest_ok l -> only L (all_text tx x l).
Proof. intros H1 H. apply Hx; [exact H1|]. apply only_tail, H. Qed.
End Only.
Ltac texts' O := repeat first [exact O | apply only_app; [apply only_dec; lia|] | apply only_cons; [reflexivity|]].
Lemma only_early x r : item_ok x -> only given' r -> only given' (early false false false false x r).
Proof. intros H O. cases x H; open_text; texts' O. Qed.
Lemma only_plain x r : item_ok x -> only few' r -> only few' (plain' x r).
Proof. intros H O. unfold plain'. cases' x H; open_text; texts' O. Qed.
Lemma only_wrapped x r : item_ok x -> only called' r -> only called' (wrapped x r).
Proof. intros H O. unfold wrapped. cases' x H; open_text; texts' O. Qed.
(* ---- neighbours ---- *)
Section Pairs.
Variables f g : Z -> bool.
Definition head_no (r : pystr) : Prop := match r with d :: _ => g d | [] => false end = false.
Hypothesis Hx : forall x r, item_ok x -> free r -> no_pair f g r -> no_pair f g (wrapped x r).
Hypothesis Ho : f 43 || f 45 || f 42 = false.
Lemma pair_tail l : rest_ok l -> no_pair f g (tail_text wrapped l).
Proof.
  intros H. induction H as [|[o x] l [H1 H2] H IH]; [exact I|]. cbn [tail_text]. apply no_pair_cons; [|apply Hx; [exact H2|apply free_tail, H|exact IH]].
  rewrite !orb_false_iff in Ho. cbn [fst] in H1. destruct H1 as [-> |[-> | ->]]; apply Ho.
Qed.
Lemma pair_all ok x l : item_ok x -> rest_ok l -> re_sub (m_pair ok f g) [] 0 (all_text wrapped x l) = all_text wrapped x l.
Proof. intros H1 H. apply pair_none. apply Hx; [exact H1|apply free_tail, H|apply pair_tail, H]. Qed.
End Pairs.
Ltac apart' N :=
  first
    [ exact N
    | apply no_pair_cons; [reflexivity|]
    | apply apart_left; [reflexivity|lia|]
    | apply apart_right; [reflexivity|reflexivity|lia|]
    | (split; [reflexivity|]) ].
Ltac pairs := intros x r H F N; unfold wrapped; cases' x H; open_text; (destruct r as [|o r]; [|destruct F as [-> |[-> | ->]]]); repeat apart' N.
Lemma pr1 x r : item_ok x -> free r -> no_pair is_digit (is_c 115) r -> no_pair is_digit (is_c 115) (wrapped x r). Proof. revert x r. pairs. Qed.
Lemma pr2 x r : item_ok x -> free r -> no_pair is_digit (is_c 111) r -> no_pair is_digit (is_c 111) (wrapped x r). Proof. revert x r. pairs. Qed.
Lemma pr3 x r : item_ok x -> free r -> no_pair is_digit (is_c 40) r -> no_pair is_digit (is_c 40) (wrapped x r). Proof. revert x r. pairs. Qed.
Lemma pr4 x r : item_ok x -> free r -> no_pair (is_c 41) is_digit r -> no_pair (is_c 41) is_digit (wrapped x r). Proof. revert x r. pairs. Qed.
Lemma pr5 x r : item_ok x -> free r -> no_pair (is_c 41) (is_c 40) r -> no_pair (is_c 41) (is_c 40) (wrapped x r). Proof. revert x r. pairs. Qed.
Lemma pr6 x r : item_ok x -> free r -> no_pair (is_c 41) (is_c 111) r -> no_pair (is_c 41) (is_c 111) (wrapped x r). Proof. revert x r. pairs. Qed.
(* ---- calls ---- *)
Ltac calls N :=
  first
    [ exact N
    | apply no_oPs_cons; [reflexivity|]
    | apply no_oPs_dec; [lia|discriminate|]
    | apply no_oPs_two; [reflexivity|]
    | (split; [reflexivity|]) ].
Lemma oPs_item x r : item_ok x -> no_oPs r -> no_oPs (plain' x r).
Proof. intros H N. unfold plain'. cases' x H; open_text; repeat calls N. Qed.
Lemma oPs_all x l : item_ok x -> rest_ok l -> re_sub m_oPs [] 0 (all_text plain' x l) = all_text plain' x l.
Proof.
  intros H1 H. apply oPs_pass. apply oPs_item; [exact H1|]. induction H as [|[o y] l [H2 H3] H IH]; [exact I|]. cbn [tail_text fst snd] in *. apply no_oPs_cons; [destruct H2 as [-> |[-> | ->]]; reflexivity|]. apply oPs_item; assumption.
Qed.
(* ---- all of it ---- *)
Section Whole.
Variables (x : item) (l : list (Z * item)).
Hypothesis (H1 : item_ok x) (H : rest_ok l).
Definition raw := early false false false false.
Lemma front_sum u : only given' u -> norm u = all_text raw x l -> front u = all_text plain x l.
Proof.
  intros O E. unfold front. rewrite (clean_given' u O), E. rewrite (all_stage m_pow raw raw x l st_pow) by (try assumption; intros b o s [-> |[-> | ->]]; reflexivity).
  rewrite skip_braces' by (apply (only_all given' raw); [exact only_early|reflexivity|assumption|assumption]). unfold parse_spins.
  rewrite (all_stage _ raw _ x l st_Au) by (try assumption; intros b o s [-> |[-> | ->]]; reflexivity).
  rewrite (all_stage _ _ _ x l st_Ad) by (try assumption; intros b o s [-> |[-> | ->]]; reflexivity).
  rewrite (all_stage _ _ _ x l st_Bd) by (try assumption; intros b o s [-> |[-> | ->]]; reflexivity).
  rewrite (all_stage _ _ _ x l st_Bu) by (try assumption; intros b o s [-> |[-> | ->]]; reflexivity).
  apply (all_stage _ _ _ x l st_ats); try assumption. intros b o s [-> |[-> | ->]]; reflexivity.
Qed.
Ltac st L := apply (all_stage _ _ _ x l L); try assumption; intros b o s [-> |[-> | ->]]; first [reflexivity | re1 | apply bis_other; discriminate].
Ltac sk L := apply L; apply (only_all few' plain'); [exact only_plain|reflexivity|assumption|assumption].
Ltac sk2 L := apply L; apply (only_all called' wrapped); [exact only_wrapped|reflexivity|assumption|assumption].
Ltac pr L := apply (pair_all _ _ L); [reflexivity|assumption|assumption].
Lemma back_sum : back (all_text plain x l) = all_text final x l.
Proof.
  eapply back_by.
  - st st_bis. - st st_two. - st st_bis'. - st st_two'.
  - st st_s. - sk skip_mass'. - apply oPs_all; assumption. - sk skip_mvar'.
  - apply skip_pre'; [reflexivity|reflexivity|]. apply (only_all few' plain'); [exact only_plain|reflexivity|assumption|assumption].
  - apply skip_pre'; [reflexivity|reflexivity|]. apply (only_all few' plain'); [exact only_plain|reflexivity|assumption|assumption].
  - sk skip_tr5'. - sk skip_tr'. - sk skip_Dadj'. - sk skip_Dnon'.
  - st st_NB. - st st_Ab. - st st_Ak. - st st_Sb. - st st_Sk. - st st_begin. - st st_open_end. - st st_double. - st st_dot.
  - sk2 skip_sqrt'. - pr pr1. - pr pr2. - pr pr3. - pr pr4. - pr pr5. - pr pr6. - sk2 skip_rat'. - st st_block.
Qed.
End Whole.
