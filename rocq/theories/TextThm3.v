(* Reading back the strings of TextSpec.v. *)
From Coq Require Import Ascii String.
From Coq Require Import List ZArith Bool Lia.
From Verif Require Import Base Fld Compute Symm Str GenSpec GenThm Parse ParseSpec ParseChars Regex RegexThm Text TextSpec TextThm TextThm2.
Import ListNotations.
Open Scope Z_scope.

(* ---- numbers ---- *)
Lemma digs_dec i : 0 <= i -> digs (dec i).
Proof. intros H. split; [apply dec_nil, H|apply dec_digits, H]. Qed.
Lemma digs_numeric a : digs a -> numeric a.
Proof. intros [_ F]. unfold numeric. eapply Forall_impl; [|exact F]. intros c. apply is_digit_iff. Qed.
Lemma digs_text l : legs l -> digs (digits_text l).
Proof.
  intros [N F]. unfold digits_text. split; [destruct l; [congruence|discriminate]|]. apply Forall_map. eapply Forall_impl; [|exact F]. unfold one_digit. cbv beta. intros; lia.
Qed.
Lemma labels_text l : labels_of (digits_text l) = l.
Proof. unfold labels_of, digits_text. rewrite map_map. rewrite <- (map_id l) at 2. apply map_ext. intros; lia. Qed.
Lemma literal_of i : 0 <= i -> literal (dec i) = Some i.
Proof.
  intros H. unfold literal. pose proof (literal_dec i H) as L. unfold literal_ok in L. destruct (dec i) as [|c r] eqn:E; [destruct (dec_nil i H E)|].
  rewrite <- E, number_dec by exact H. destruct (c =? 48) eqn:C; [|reflexivity]. destruct (Z.eq_dec i 0) as [->|N].
  - replace r with (@nil Z); [reflexivity|]. vm_compute in E. congruence.
  - destruct (dec_lead i ltac:(lia)) as (d & ds & E' & D). rewrite E in E'. injection E' as <- _. apply Z.eqb_eq in C. congruence.
Qed.
Lemma digs_in a c : digs a -> In c a -> 48 <= c <= 57.
Proof. intros [_ F] I. rewrite Forall_forall in F. auto. Qed.
Lemma digits_split_r d d' x y r r' : digs d -> digs d' -> (x < 48 \/ 57 < x) -> (y < 48 \/ 57 < y) ->
  r ++ x :: d = r' ++ y :: d' -> r = r' /\ x = y /\ d = d'.
Proof.
  intros [_ D] [_ D'] X Y E. apply (f_equal (@rev Z)) in E. rewrite !rev_app_distr in E. cbn [rev] in E. rewrite <- !app_assoc in E. cbn [app] in E.
  apply digits_split in E; auto; try (apply Forall_rev; assumption).
  destruct E as (E1 & E2 & E3). apply (f_equal (@rev Z)) in E1, E3. rewrite !rev_involutive in *. auto.
Qed.

(* ---- entries ---- *)
Lemma entry_text_cons i l : entry_text (i, l) = dec i ++ concat (map (fun x => sign_text (fst x) ++ dec (snd x)) l).
Proof. reflexivity. Qed.
Lemma terms_text l : Forall (fun x => 0 <= snd x) l -> forall f, (length (concat (map (fun x : bool * Z => sign_text (fst x) ++ dec (snd x)) l)) < f)%nat ->
  terms_of f (concat (map (fun x : bool * Z => sign_text (fst x) ++ dec (snd x)) l)) = Some l.
Proof.
  induction 1 as [|(b, j) l H F IH]; intros f L; (destruct f as [|f]; [cbn in L; lia|]).
  - reflexivity.
  - cbn [map concat fst snd] in *. set (r := concat _) in *.
    assert (S : digits (dec j ++ r) = dec j). { apply digits_app; [apply dec_numeric, H|]. unfold r. destruct l as [|(b', k) l]; [exact I|]. destruct b'; reflexivity. }
    rewrite !app_length in L.
    destruct b; cbn [sign_text] in *; [change (lit "+") with [43] in *|change (lit "-") with [45] in *]; cbn [app length] in *; cbn [terms_of];
      rewrite S, literal_of, skipn_app', IH by (auto; lia); reflexivity.
Qed.
Lemma entry_of_text e : entry_ok e -> entry_of (entry_text e) = Some e.
Proof.
  destruct e as (i, l). intros [H F]. unfold entry_of. cbn [fst snd] in *. rewrite entry_text_cons. set (r := concat _).
  assert (S : digits (dec i ++ r) = dec i). { apply digits_app; [apply dec_numeric, H|]. unfold r. destruct l as [|(b', k) l]; [exact I|]. destruct b'; reflexivity. }
  rewrite S, literal_of, skipn_app' by exact H. unfold r. rewrite terms_text; [reflexivity|exact F|]. rewrite app_length. lia.
Qed.
Lemma entry_chars e c : entry_ok e -> In c (entry_text e) -> 48 <= c <= 57 \/ c = 43 \/ c = 45.
Proof.
  destruct e as (i, l). intros [H F]. cbn [fst snd] in *. rewrite entry_text_cons. intros I. apply in_app_or in I. destruct I as [I|I].
  - left. exact (digs_in _ _ (digs_dec i H) I).
  - apply in_concat in I. destruct I as (u & U & I). apply in_map_iff in U. destruct U as ((b, j) & <- & J). rewrite Forall_forall in F. specialize (F _ J). cbn [fst snd] in *.
    apply in_app_or in I. destruct I as [I|I]; [|left; exact (digs_in _ _ (digs_dec j F) I)]. destruct b; destruct I as [<-|[]]; auto.
Qed.
Lemma no_round_id s : (forall c, In c s -> c <> 40 /\ c <> 41) -> no_round s = s.
Proof.
  unfold no_round. induction s as [|c s IH]; intros H; cbn [filter]; [reflexivity|]. destruct (H c (or_introl eq_refl)) as [A B].
  unfold c_lp, c_rp. rewrite (proj2 (Z.eqb_neq _ _) A), (proj2 (Z.eqb_neq _ _) B). cbn. f_equal. apply IH. intros x X. apply H. right. exact X.
Qed.
Lemma no_round_app s t : no_round (s ++ t) = no_round s ++ no_round t.
Proof. apply filter_app. Qed.
Lemma no_round_entry e t : shows_entry e t -> entry_ok e /\ no_round t = entry_text e.
Proof.
  assert (N : forall e, entry_ok e -> no_round (entry_text e) = entry_text e). { intros e' H. apply no_round_id. intros c I. apply entry_chars in I; [lia|exact H]. }
  intros [e' H|e' H]; (split; [exact H|]); [apply N, H|]. rewrite !no_round_app, N by exact H. change (no_round (lit "(")) with (@nil Z). change (no_round (lit ")")) with (@nil Z). cbn. apply app_nil_r.
Qed.
Lemma split_one k s : ~ In k s -> split k s = [s].
Proof. induction s as [|c s IH]; intros H; cbn [split]; [reflexivity|]. rewrite (proj2 (Z.eqb_neq c k)) by (intros ->; apply H; left; reflexivity). rewrite IH; [reflexivity|]. intros I; apply H; right; exact I. Qed.
Lemma split_cons k s t : ~ In k s -> split k (s ++ k :: t) = s :: split k t.
Proof.
  induction s as [|c s IH]; intros H; cbn [app split]; [rewrite Z.eqb_refl; reflexivity|].
  rewrite (proj2 (Z.eqb_neq c k)) by (intros ->; apply H; left; reflexivity). rewrite IH; [reflexivity|]. intros I; apply H; right; exact I.
Qed.
Lemma no_bar e : entry_ok e -> ~ In 124 (entry_text e).
Proof. intros H I. apply entry_chars in I; [lia|exact H]. Qed.
Lemma middle_text es t : shows_entries es t -> middle_of t = Some es.
Proof.
  unfold middle_of. induction 1 as [e t H|e t es u H S IH]; destruct (no_round_entry _ _ H) as [O N].
  - rewrite N, split_one by (apply no_bar, O). cbn [entries_of]. rewrite entry_of_text by exact O. reflexivity.
  - rewrite !no_round_app, N. change (no_round (lit "|")) with [124]. cbn [app]. unfold c_bar in *. rewrite split_cons by (apply no_bar, O). cbn [entries_of]. rewrite entry_of_text by exact O. rewrite IH. reflexivity.
Qed.
Lemma bare_entries es t : shows_bare es t -> shows_entries es t.
Proof. induction 1 as [e H|e es u H S IH]; [apply last_entry, bare, H|apply next_entry; [apply bare, H|exact IH]]. Qed.
Lemma split_bare es t : shows_bare es t -> split 124 t = map entry_text es /\ Forall entry_ok es.
Proof.
  induction 1 as [e H|e es u H S [IH F]].
  - rewrite split_one by (apply no_bar, H). auto.
  - change (lit "|") with [124]. cbn [app]. rewrite split_cons by (apply no_bar, H). rewrite IH. auto.
Qed.
Lemma entries_text es : Forall entry_ok es -> entries_of (map entry_text es) = Some es.
Proof. induction 1 as [|e es H F IH]; cbn [map entries_of]; [reflexivity|]. rewrite entry_of_text, IH by exact H. reflexivity. Qed.

(* ---- the middles match ---- *)
Lemma star_plus a s : par (rplus a) s [] -> (forall g, par a [] g -> False) -> par (RStar a) s [].
Proof.
  unfold rplus. intros P N. apply par_RSeq in P. destruct P as (t & u & h & k & -> & E & A & B). symmetry in E. apply app_eq_nil in E. destruct E as [-> ->].
  change (@nil (nat * pystr)) with (@nil (nat * pystr) ++ []). apply par_more; auto. intros ->. exact (N _ A).
Qed.
Lemma plus_more a s t : par a s [] -> par (rplus a) t [] -> (forall g, par a [] g -> False) -> par (rplus a) (s ++ t) [].
Proof. intros A B N. unfold rplus at 1. apply seq0; [exact A|apply star_plus; auto]. Qed.
Lemma plus_one a s : par a s [] -> par (rplus a) s [].
Proof. intros A. rewrite <- (app_nil_r s). unfold rplus. apply seq0; [exact A|constructor]. Qed.
Lemma not_null a : nullable a = false -> forall g, par a [] g -> False.
Proof. intros H g P. rewrite (par_nullable _ _ _ P eq_refl) in H. discriminate. Qed.
Lemma nb_inner l : Forall (fun x => 0 <= snd x) l -> forall i, 0 <= i -> par (rplus (RSeq rnum (ropt (RChr is_sep)))) (entry_text (i, l)) [].
Proof.
  induction 1 as [|(b, j) l H F IH]; intros i I; rewrite entry_text_cons; cbn [map concat fst snd].
  - apply plus_one. apply seq0; [apply rnum1, digs_dec, I|apply opt0].
  - rewrite <- !app_assoc, (app_assoc (dec i)). apply plus_more; [|exact (IH j H)|apply not_null; reflexivity].
    apply seq0; [apply rnum1, digs_dec, I|]. apply opt1. destruct b; apply chr; reflexivity.
Qed.
Definition nb_piece : re := RSeq (ropt (rc c_lp)) (RSeq (rplus (RSeq rnum (ropt (RChr is_sep)))) (RSeq (ropt (rc c_rp)) (ropt (rc c_bar)))).
Lemma nb_entry e t u : shows_entry e t -> u = [] \/ u = [124] -> par nb_piece (t ++ u) [].
Proof.
  assert (B : forall u, u = [] \/ u = [124] -> par (ropt (rc c_bar)) u []). { intros v [-> | ->]; [apply opt0|apply opt1, rc1]. }
  intros H U. destruct H as [(i, l) [I F]|(i, l) [I F]]; cbn [fst snd] in *.
  - unfold nb_piece. change (entry_text (i, l) ++ u) with ([] ++ entry_text (i, l) ++ [] ++ u). apply seq0; [apply opt0|]. apply seq0; [apply nb_inner; auto|]. apply seq0; [apply opt0|auto].
  - unfold nb_piece. change (lit "(") with [40]. change (lit ")") with [41]. rewrite <- !app_assoc. apply seq0; [apply opt1, rc1|]. apply seq0; [apply nb_inner; auto|]. apply seq0; [apply opt1, rc1|auto].
Qed.
Lemma nb_entries es t : shows_entries es t -> par nb_mid t [].
Proof.
  change nb_mid with (rplus nb_piece). induction 1 as [e t H|e t es u H S IH].
  - apply plus_one. rewrite <- (app_nil_r t). eapply nb_entry; eauto.
  - change (lit "|") with [124]. rewrite app_assoc. apply plus_more; [eapply nb_entry; eauto|exact IH|apply not_null; reflexivity].
Qed.
Lemma mid_entry e : entry_ok e -> entry_text e <> [] /\ Forall (fun c => is_mid c = true) (entry_text e).
Proof.
  intros O. split.
  - destruct e as (i, l). rewrite entry_text_cons. destruct O as [I _]. cbn [fst] in I. destruct (dec_cons i I) as (d & ds & ->). discriminate.
  - apply Forall_forall. intros c I. apply entry_chars in I; [|exact O]. unfold is_mid. destruct I as [I|[-> | ->]]; [rewrite (proj2 (is_digit_iff c) I)| |]; reflexivity.
Qed.
Lemma mid_bare es t : shows_bare es t -> t <> [] /\ Forall (fun c => is_mid c = true) t.
Proof.
  induction 1 as [e H|e es u H S [N IH]]; [apply mid_entry, H|]. destruct (mid_entry e H) as [M F]. split.
  - destruct (entry_text e); [congruence|discriminate].
  - apply Forall_app. split; [exact F|]. apply Forall_app. split; [repeat constructor|exact IH].
Qed.
Definition tr_piece : re := RAlt (RSeq (rc c_lp) (RSeq (rplus (RChr is_mid)) (rc c_rp))) (rplus (RChr is_mid)).
Lemma tr_entries es t : shows_entries es t -> par tr_mid t [].
Proof.
  assert (M : forall s u, par tr_piece s [] -> par tr_mid u [] -> par tr_mid (s ++ u) []).
  { intros s u A B. change (@nil (nat * pystr)) with (@nil (nat * pystr) ++ []). apply par_more; auto. intros ->. revert A. apply not_null. reflexivity. }
  assert (E : forall e t, shows_entry e t -> par tr_piece t []).
  { intros e t0 [e' H|e' H]; destruct (mid_entry _ H).
    - apply par_r. apply par_plus_chr. auto.
    - apply par_l. change (lit "(") with [40]. change (lit ")") with [41]. apply seq0; [apply rc1|]. apply seq0; [apply par_plus_chr; auto|apply rc1]. }
  induction 1 as [e t H|e t es u H S IH].
  - rewrite <- (app_nil_r t). apply M; [eapply E; eauto|constructor].
  - apply M; [eapply E; eauto|]. apply M; [|exact IH]. apply par_r. apply par_plus_chr. repeat split; [discriminate|repeat constructor].
Qed.
(* numbers with a sign or a bar between two of them *)
Inductive seps : pystr -> Prop :=
| seps1 d : digs d -> seps d
| sepsn d x s : digs d -> is_sep x = true -> seps s -> seps (d ++ x :: s).
Lemma seps_piece s : seps s -> par open_piece s [].
Proof.
  unfold open_piece. induction 1 as [d D|d x s D X S IH].
  - rewrite <- (app_nil_r d). apply seq0; [apply rnum1, D|constructor].
  - apply seq0; [apply rnum1, D|]. apply par_RSeq in IH. destruct IH as (t & u & h & k & -> & E & A & B). symmetry in E. apply app_eq_nil in E. destruct E as [-> ->].
    change (x :: t ++ u) with ((x :: t) ++ u). change (@nil (nat * pystr)) with (@nil (nat * pystr) ++ []). apply par_more; [discriminate| |exact B]. apply seqc; [apply chr, X|exact A].
Qed.
Lemma seps_entry l : Forall (fun x => 0 <= snd x) l -> forall i r, 0 <= i -> (r = [] \/ exists x r', r = x :: r' /\ is_sep x = true /\ seps r') -> seps (entry_text (i, l) ++ r).
Proof.
  induction 1 as [|(b, j) l H F IH]; intros i r I R; rewrite entry_text_cons; cbn [map concat fst snd].
  - rewrite app_nil_r. destruct R as [-> |(x & r' & -> & X & S)]; [rewrite app_nil_r; apply seps1, digs_dec, I|apply sepsn; auto using digs_dec].
  - specialize (IH j r H R). rewrite entry_text_cons in IH. rewrite <- !app_assoc in *. destruct b; cbn [sign_text];
      [change (lit "+") with [43]|change (lit "-") with [45]]; cbn [app]; apply sepsn; auto using digs_dec.
Qed.
Lemma seps_bare es t : shows_bare es t -> seps t.
Proof.
  induction 1 as [(i, l) [H F]|(i, l) es u [H F] S IH]; cbn [fst snd] in *.
  - rewrite <- (app_nil_r (entry_text _)). apply seps_entry; auto.
  - apply seps_entry; auto. right. exists 124, u. auto.
Qed.
Lemma open_entries es t : shows_bare es t \/ length es = 1%nat /\ shows_entries es t -> par open_mid t [] /\ middle_of t = Some es.
Proof.
  intros H. split; [|destruct H as [H|[_ H]]; apply middle_text; [apply bare_entries|]; exact H].
  apply plus_one. destruct H as [H|[L H]]; [apply par_r, seps_piece, (seps_bare _ _ H)|].
  inversion H as [e t' E|e t' es' u E S]; subst; [|destruct S; discriminate]. destruct E as [(i, l) [I F]|(i, l) [I F]]; cbn [fst snd] in *.
  - apply par_r, seps_piece. rewrite <- (app_nil_r (entry_text _)). apply seps_entry; auto.
  - apply par_l. change (lit "(") with [40]. change (lit ")") with [41]. apply seq0; [apply rc1|]. apply seq0; [|apply rc1]. apply seps_piece. rewrite <- (app_nil_r (entry_text _)). apply seps_entry; auto.
Qed.
(* corners *)
Lemma corner_text cs t : shows_corners cs t -> par d_mid t [] /\ split 124 t = map digits_text cs /\ Forall legs cs.
Proof.
  assert (B : forall l, legs l -> ~ In 124 (digits_text l)). { intros l L I. apply (digs_in _ _ (digs_text l L)) in I. lia. }
  unfold d_mid. induction 1 as [l L|l ls u L S (IH & E & F)].
  - repeat split; auto; [|apply split_one; auto]. rewrite <- (app_nil_r (digits_text l)). apply seq0; [apply rnum1, digs_text, L|constructor].
  - change (lit "|") with [124]. cbn [app]. repeat split; auto; [|rewrite split_cons, E by auto; reflexivity].
    apply seq0; [apply rnum1, digs_text, L|]. apply par_RSeq in IH. destruct IH as (t & v & h & k & -> & E' & P & Q). symmetry in E'. apply app_eq_nil in E'. destruct E' as [-> ->].
    change (124 :: t ++ v) with ((124 :: t) ++ v). change (@nil (nat * pystr)) with (@nil (nat * pystr) ++ []). apply par_more; [discriminate| |exact Q]. apply seqc; [apply rc1|exact P].
Qed.
