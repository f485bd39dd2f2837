(* Proofs about the textual replacements of _parse: those for open chains do not touch what is
   in a call. *)
From Coq Require Import Ascii String.
From Coq Require Import List ZArith Bool Lia.
From Verif Require Import Base Str Symm Regex RegexThm Parse ParseSpec MassesThm GenThm.
From Verif Require Export ParseWrap.
Import ListNotations.
Open Scope Z_scope.

Lemma rank9 a : (rank a <=? 9)%nat = true. Proof. destruct a; reflexivity. Qed.
Lemma each_open (P : pystr -> Z -> pystr -> Prop) t b r : tok_ok t -> (forall b c s, ~ In c [10216; 91; 124; 60; 62] -> P b c s) ->
  (forall b0 c s, c = 10216 \/ c = 91 -> P (39 :: 40 :: b0) c s) -> (forall b s, bar_at True b s (39 :: 41 :: r) -> P b 124 s) -> each P b (st true 9 t) r.
Proof.
  intros K Hc Hh Hb. apply each_tok; [exact K|exact Hc| |].
  - intros a _ E. rewrite rank9 in E. discriminate E.
  - intros a b0 -> _. apply (each_inv _ (39 :: 41 :: r) True); [exact Hb| |exact K|auto|].
    + intros b' c s Q. apply Hc, quietc_not, Q.
    + intros c s C _. apply Hh, C.
Qed.
Lemma cls_in l c : cls l c = true <-> In c l.
Proof. unfold cls. rewrite existsb_exists. split; [intros (x & I & E); apply Z.eqb_eq in E; subst; exact I|intros I; exists c; rewrite Z.eqb_refl; auto]. Qed.
Lemma digits_split s : s = digits s ++ skipn (length (digits s)) s /\ numeric (digits s).
Proof.
  induction s as [|c s (IH & N)]; [split; [reflexivity|constructor]|]. cbn [digits]. destruct (is_digit c) eqn:D; [|split; [reflexivity|constructor]]. cbn [length skipn app]. split; [f_equal; exact IH|constructor; assumption].
Qed.
Lemma runs_ket s r u y v : runs s (39 :: r) -> Forall mid u -> ~ mid y -> y <> 39 -> s = u ++ y :: v -> v = 39 :: r.
Proof.
  intros (x & Fx & C) Fu Ny N9 ->. assert (M9 : ~ mid 39) by (unfold mid; cbn; lia). destruct C as [E|(k & K & E)].
  - apply (split_first mid) in E; try assumption. destruct E as (_ & E & _). contradiction.
  - apply (split_first mid) in E; try assumption; [|apply ket_not_mid, K]. destruct E as (_ & _ & E). exact E.
Qed.
(* brackets that are open on one side *)
Lemma pass_bra f kets bra t b r : (forall c, f c = true -> In c [10216; 60; 91]) -> tok_ok t -> each (none (m_bra f kets bra)) b (st true 9 t) r.
Proof.
  intros F K. assert (Hc : forall b c s, ~ In c [10216; 60; 91] -> none (m_bra f kets bra) b c s).
  { intros b' c s N. unfold none, m_bra. destruct (f c) eqn:E; [apply F in E; contradiction|reflexivity]. }
  apply each_open; [exact K| | |].
  - intros b' c s N. apply Hc. cbn in N |- *. tauto.
  - intros b0 c s _. unfold none, m_bra. change (out_of_call (39 :: 40 :: b0)) with false. rewrite andb_false_r. reflexivity.
  - intros b' s _. apply Hc. cbn. lia.
Qed.
Lemma pass_ket f bras kt t b r : (forall c, f c = true -> ~ mid c /\ c <> 39) -> tok_ok t -> each (none (m_ket f bras kt)) b (st true 9 t) r.
Proof.
  intros F K. assert (Hc : forall b c s, c <> 124 -> none (m_ket f bras kt) b c s).
  { intros b' c s N. unfold none, m_ket. rewrite (proj2 (Z.eqb_neq c 124) N). reflexivity. }
  apply each_open; [exact K| | |].
  - intros b' c s N. apply Hc. intros ->. apply N. cbn. tauto.
  - intros b0 c s C. apply Hc. lia.
  - intros b' s (_ & R & _). unfold none, m_ket. destruct (_ && _ && _ && _); [|reflexivity]. cbv zeta. destruct (digits_split s) as (E & N). destruct (digits s) as [|d ds] eqn:D; [reflexivity|].
    destruct (skipn (length (d :: ds)) s) as [|x s2] eqn:Sk; [reflexivity|]. destruct (f x) eqn:Fx; [|reflexivity]. destruct (F x Fx) as (Nx & N9).
    assert (X := runs_ket s (41 :: r) (d :: ds) x s2 R (numeric_mid _ N) Nx N9 E). subst s2. reflexivity.
Qed.
(* patterns between lookarounds *)
Lemma re_other ok e next out b c s : nullable e = false -> firsts e c = false -> m_re ok e next out b (c :: s) = None.
Proof.
  intros Nu Fi. unfold m_re. destruct (ok b); [|reflexivity]. destruct (find _ (tries e (c :: s))) as [(g, q)|] eqn:E; [|reflexivity]. exfalso. apply find_some in E. destruct E as (I & _).
  apply tries_sound in I. destruct I as (p & E & P). destruct p as [|c' p]; [apply par_nullable in P; [congruence|reflexivity]|]. injection E as <- E. rewrite (par_first _ _ _ P c p eq_refl) in Fi. discriminate Fi.
Qed.
Lemma re_none (ok : pystr -> bool) e next out b s : (ok b = true -> forall p g q, s = p ++ q -> par e p g -> next q = true -> False) -> m_re ok e next out b s = None.
Proof.
  intros H. unfold m_re. destruct (ok b); [|reflexivity]. destruct (find _ (tries e s)) as [(g, q)|] eqn:E; [|reflexivity]. exfalso. apply find_some in E. destruct E as (I & N).
  apply tries_sound in I. destruct I as (p & E & P). exact (H eq_refl p g q E P N).
Qed.
Lemma mid_begin_mid p g : par mid_begin p g -> Forall mid p.
Proof. intros H. eapply mid_of; [exact H|]. intros c C. unfold mid_begin, terms, more_terms in C. midc C. Qed.
Lemma mid_end_mid p g : par mid_end p g -> Forall mid p.
Proof. intros H. eapply mid_of; [exact H|]. intros c C. unfold mid_end, terms, more_terms in C. midc C. Qed.
Lemma M124 : mid 124. Proof. right. cbn. tauto. Qed.
Lemma pass_begin t b r : tok_ok t -> each (none m_begin) b (st true 9 t) r.
Proof.
  intros K. assert (Hc : forall b c s, c <> 124 -> none m_begin b c s).
  { intros b' c s N. apply re_other; [reflexivity|]. cbn. rewrite (proj2 (Z.eqb_neq c 124) N). reflexivity. }
  apply each_open; [exact K|intros b' c s N; apply Hc; intros ->; apply N; cbn; tauto|intros b0 c s C; apply Hc; lia|].
  intros b' s (_ & R & _). apply re_none. intros _ p g q E P N. apply par_RSeq in P. destruct P as (t1 & u1 & ? & ? & -> & _ & P1 & P). apply par_rc in P1. destruct P1 as (-> & _).
  apply par_RSeq in P. destruct P as (md & u2 & ? & ? & -> & _ & P1 & P). apply mid_begin_mid in P1.
  apply par_RSeq in P. destruct P as (t2 & u3 & ? & ? & -> & _ & P2 & P). apply par_rc in P2. destruct P2 as (-> & _).
  apply par_RSeq in P. destruct P as (n2 & u4 & ? & ? & -> & _ & P2 & P). apply par_rnum in P2. destruct P2 as (N2 & _).
  apply par_RChr in P. destruct P as (k & -> & Kk & _). apply cls_in in Kk. cbn in E. injection E as E.
  assert (X : q = 39 :: 41 :: r).
  { apply (runs_ket s (41 :: r) (md ++ 124 :: n2) k q R); [|cbn in Kk; unfold mid; cbn; lia|cbn in Kk; lia|rewrite E; repeat (rewrite <- app_assoc; cbn [app]); reflexivity].
    apply Forall_app. split; [exact P1|]. constructor; [exact M124|apply digs_mid, N2]. }
  subst q. discriminate N.
Qed.
Lemma pass_open_end t b r : tok_ok t -> each (none m_open_end) b (st true 9 t) r.
Proof.
  intros K. assert (Hc : forall b c s, ~ In c [10216; 60; 91] -> none m_open_end b c s).
  { intros b' c s N. apply re_other; [reflexivity|]. cbn [firsts nullable]. rewrite andb_false_l, orb_false_r. destruct (cls [10216; 60; 91] c) eqn:E; [apply cls_in in E; contradiction|reflexivity]. }
  apply each_open; [exact K|intros b' c s N; apply Hc; cbn in N |- *; tauto| |intros; apply Hc; cbn; lia].
  intros b0 c s _. unfold none, m_open_end, m_re. change (out_of_call (39 :: 40 :: b0)) with false. reflexivity.
Qed.
Lemma held_double b : held b -> ok_double b = false.
Proof.
  intros H. unfold ok_double. destruct H as [d x b D I|d x b D I|u x b N L C].
  - assert (X : not_bra_behind (d :: x :: b) = false \/ after_sum (d :: x :: b) = false).
    { unfold not_bra_behind, after_sum, not_behind. cbn [rev app looks]. rewrite D. inl I; cbn; rewrite ?andb_false_r; tauto. }
    destruct X as [-> | ->]; rewrite ?andb_false_r; reflexivity.
  - assert (X : after_sum (41 :: d :: x :: b) = false). { unfold after_sum, not_behind. cbn [rev app looks]. rewrite D. inl I; reflexivity. }
    rewrite X, !andb_false_r. reflexivity.
  - assert (X : not_number_behind x (u ++ x :: b) = false).
    { unfold not_number_behind, not_behind. destruct u as [|d1 [|d2 [|d3 [|d4 [|d5 u]]]]]; cbn [length] in L; try lia; unfold numeric in N; rewrite ?Forall_cons_iff in N; cbn [forallb repeat rev app looks];
        repeat match goal with H : _ /\ _ |- _ => destruct H end; repeat match goal with H : is_digit ?d = true |- _ => rewrite H; clear H end; unfold is_c; rewrite Z.eqb_refl; cbn [andb negb]; rewrite ?andb_false_r; reflexivity. }
    destruct C as [-> | ->]; rewrite X, ?andb_false_r; reflexivity.
Qed.
Lemma pass_dbl (ok : pystr -> bool) out t b r : (forall b, ok b = true -> ok_double b = true) -> tok_ok t -> each (none (m_re ok e_double free_end out)) b (st true 9 t) r.
Proof.
  intros O K. assert (Hc : forall b c s, c <> 124 -> none (m_re ok e_double free_end out) b c s).
  { intros b' c s N. apply re_other; [reflexivity|]. cbn. rewrite (proj2 (Z.eqb_neq c 124) N). reflexivity. }
  apply each_open; [exact K|intros b' c s N; apply Hc; intros ->; apply N; cbn; tauto|intros b0 c s C; apply Hc; lia|].
  intros b' s (H & R & _). apply re_none. intros Ok p g q E P _. apply O in Ok. destruct H as [H|(u & k & Nu & Kk & Es)]; [apply held_double in H; congruence|].
  apply par_RSeq in P. destruct P as (t1 & u1 & ? & ? & -> & _ & P1 & P). apply par_rc in P1. destruct P1 as (-> & _).
  apply par_RSeq in P. destruct P as (md & u2 & ? & ? & -> & _ & P1 & P). apply mid_end_mid in P1. apply par_rc in P. destruct P as (-> & _). cbn in E. injection E as E. rewrite <- app_assoc in E. cbn [app] in E. rewrite Es in E. clear R Es.
  revert u Nu E. induction P1 as [|c md Hc' F IH]; intros u Nu E; destruct u as [|d u]; cbn [app] in E; injection E as E1 E2.
  - subst k. exact (ket_not_mid 124 Kk M124).
  - subst d. inversion Nu; discriminate.
  - subst c. exact (ket_not_mid k Kk Hc').
  - inversion Nu; subst. eapply IH; eassumption.
Qed.
Lemma pass_double t b r : tok_ok t -> each (none m_double) b (st true 9 t) r.
Proof. intros K. apply pass_dbl; [|exact K]. intros b' H. apply andb_true_iff in H. apply H. Qed.
Lemma pass_double_dot t b r : tok_ok t -> each (none m_double_dot) b (st true 9 t) r.
Proof. intros K. apply pass_dbl; [|exact K]. intros b' H. apply andb_true_iff in H. apply H. Qed.
