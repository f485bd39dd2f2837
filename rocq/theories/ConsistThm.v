(* check_consistency against the strings of compute. *)
From Coq Require Import Ascii String.
From Coq Require Import List ZArith Bool Lia Arith.
From Verif Require Import Base Fld Particle Index Phase Compute Str Regex Parse ParseChars Text TextSpec TextThm TextThm2 TextThm3 TextThm4 Consist ConsistSpec.
Import ListNotations.
Open Scope Z_scope.

Definition word (w : pystr) : Prop := w <> [] /\ Forall (fun c => Consist.is_sep c = false) w.
Lemma split_word w : forall u, Forall (fun c => Consist.is_sep c = false) w -> re_split (w ++ u) = match re_split u with h :: r => (w ++ h) :: r | [] => [w] end.
Proof.
  induction w as [|x w IH]; intros u F; cbn [app re_split].
  - destruct u as [|c u]; cbn [re_split]; [reflexivity|]. destruct (Consist.is_sep c); [reflexivity|]. destruct (re_split u); reflexivity.
  - inversion F; subst. rewrite H1, IH by assumption. destruct (re_split u); reflexivity.
Qed.
Lemma rel_sep c u : Consist.is_sep c = true -> relist (c :: u) = relist u.
Proof. intros H. unfold relist. cbn [re_split]. rewrite H. reflexivity. Qed.
Lemma rel_word w c u : word w -> Consist.is_sep c = true -> relist (w ++ c :: u) = w :: relist u.
Proof.
  intros [N F] H. unfold relist. rewrite split_word by exact F. cbn [re_split]. rewrite H. rewrite app_nil_r. cbn [filter].
  destruct w; [congruence|reflexivity].
Qed.
Lemma digit_nosep c : 48 <= c <= 57 -> Consist.is_sep c = false.
Proof. intros H. unfold Consist.is_sep. cbn [existsb]. rewrite !(proj2 (Z.eqb_neq _ _)) by lia. reflexivity. Qed.
Lemma word_dec n : 0 <= n -> word (dec n).
Proof. intros H. split; [apply dec_nil, H|]. apply Forall_forall. intros c I. apply digit_nosep, (dec_in n c H I). Qed.
Lemma word_entry e : entry_ok e -> word (entry_text e).
Proof.
  intros O. split; [apply (mid_entry e O)|]. apply Forall_forall. intros c I. apply entry_chars in I; [|exact O].
  unfold Consist.is_sep. cbn [existsb]. rewrite !(proj2 (Z.eqb_neq _ _)) by lia. reflexivity.
Qed.
Lemma rel_entry e t c u : shows_entry e t -> Consist.is_sep c = true -> length (relist (t ++ c :: u)) = S (length (relist u)).
Proof.
  intros [e0 O|e0 O] H.
  - rewrite rel_word; [reflexivity|apply word_entry, O|exact H].
  - change (lit "(") with [40]. change (lit ")") with [41]. cbn [app]. rewrite rel_sep by reflexivity. rewrite <- app_assoc. cbn [app].
    rewrite rel_word by (try apply word_entry; auto). cbn [length]. rewrite rel_sep by exact H. reflexivity.
Qed.
Lemma rel_entries es t c u : shows_entries es t -> Consist.is_sep c = true -> length (relist (t ++ c :: u)) = (length es + length (relist u))%nat.
Proof.
  intros S H. induction S as [e t S|e t es w S M IH]; cbn [length].
  - rewrite (rel_entry e) by assumption. reflexivity.
  - change (lit "|") with [124]. rewrite <- !app_assoc. cbn [app]. rewrite (rel_entry e) by (try reflexivity; assumption). rewrite IH. reflexivity.
Qed.
Lemma char_last u c : char_at (u ++ [c]) (length (u ++ [c]) - 1) = Ok c.
Proof.
  unfold char_at. rewrite app_length. cbn [length]. replace (length u + 1 - 1)%nat with (length u) by lia.
  rewrite nth_error_app2 by lia. rewrite Nat.sub_diag. reflexivity.
Qed.
Lemma check_bracket o u c : (o = 10216 \/ o = 91) -> check_consistency (o :: u ++ [c]) = Ok (check_closing o c (length (relist (u ++ [c])))).
Proof.
  intros H. unfold check_consistency. change (char_at (o :: u ++ [c]) 0) with (Ok o). cbn [rbind].
  change (o :: u ++ [c]) with ((o :: u) ++ [c]). rewrite char_last. cbn [rbind].
  cbn [app]. rewrite rel_sep by (destruct H as [-> | ->]; reflexivity).
  destruct H as [-> | ->]; reflexivity.
Qed.
Lemma check_other o u : is_letter6 o = false -> o <> 10216 -> o <> 91 -> o <> 116 -> check_consistency (o :: u) = Ok (Some NoOpening).
Proof.
  intros L A B C. unfold check_consistency. change (char_at (o :: u) 0) with (Ok o). cbn [rbind].
  assert (E : exists c, char_at (o :: u) (length (o :: u) - 1) = Ok c).
  { unfold char_at. destruct (nth_error (o :: u) (length (o :: u) - 1)) as [c|] eqn:E; [eauto|]. apply nth_error_None in E. cbn in E. lia. }
  destruct E as (c & ->). cbn [rbind]. rewrite L.
  assert (T : is_tr5 (o :: u) = false).
  { unfold is_tr5. cbn [firstn]. change (lit "tr5") with [116; 114; 53]. cbn [str_eqb]. rewrite (proj2 (Z.eqb_neq o 116)) by exact C. reflexivity. }
  rewrite T, (proj2 (Z.eqb_neq _ _) A), (proj2 (Z.eqb_neq _ _) B). reflexivity.
Qed.
Lemma check_under o u : is_letter6 o = true -> check_consistency (o :: 95 :: u) = Ok None.
Proof.
  intros L. unfold check_consistency. change (char_at (o :: 95 :: u) 0) with (Ok o). cbn [rbind].
  assert (E : exists c, char_at (o :: 95 :: u) (length (o :: 95 :: u) - 1) = Ok c).
  { unfold char_at. destruct (nth_error (o :: 95 :: u) (length (o :: 95 :: u) - 1)) as [c|] eqn:E; [eauto|]. apply nth_error_None in E. cbn in E. lia. }
  destruct E as (c & ->). cbn [rbind]. rewrite L. cbn [orb]. unfold check_name.
  change (char_at (o :: 95 :: u) 1) with (Ok (A := Z) 95). destruct (o =? 948); reflexivity.
Qed.
Lemma chain_check o a es t d c : (o = 10216 \/ o = 91) -> Consist.is_sep c = true -> 0 <= a -> 0 <= d -> shows_entries es t ->
  check_consistency (o :: dec a ++ 124 :: t ++ 124 :: dec d ++ [c]) = Ok (check_closing o c (length es + 2)).
Proof.
  intros O C A D S. replace (o :: dec a ++ 124 :: t ++ 124 :: dec d ++ [c]) with (o :: (dec a ++ 124 :: t ++ 124 :: dec d) ++ [c]).
  - rewrite check_bracket by exact O. do 2 f_equal. repeat (rewrite <- app_assoc; cbn [app]).
    rewrite rel_word by (try reflexivity; apply word_dec, A). cbn [length].
    rewrite (rel_entries es) by (try reflexivity; assumption).
    rewrite rel_word by (try exact C; apply word_dec, D). cbn [length]. change (relist []) with (@nil pystr). cbn [length]. lia.
  - repeat (rewrite <- app_assoc; cbn [app]). reflexivity.
Qed.
Lemma two_check o a b c : (o = 10216 \/ o = 91) -> Consist.is_sep c = true -> 0 <= a -> 0 <= b ->
  check_consistency (o :: dec a ++ 124 :: dec b ++ [c]) = Ok (check_closing o c 2).
Proof.
  intros O C A D. replace (o :: dec a ++ 124 :: dec b ++ [c]) with (o :: (dec a ++ 124 :: dec b) ++ [c]).
  - rewrite check_bracket by exact O. do 2 f_equal. repeat (rewrite <- app_assoc; cbn [app]).
    rewrite rel_word by (try reflexivity; apply word_dec, A). 
    rewrite rel_word by (try exact C; apply word_dec, D). reflexivity.
  - repeat (rewrite <- app_assoc; cbn [app]). reflexivity.
Qed.
Lemma closing_fits o es c : o <> OLt -> bracket_ok o (length es) c = true <-> check_closing (oc o) (cc c) (length (A := entry) es + 2) = None.
Proof.
  intros N. unfold check_closing. replace (Nat.even (length es + 2)) with (Nat.even (length es)) by (rewrite Nat.even_add; destruct (Nat.even (length es)); reflexivity).
  destruct o, c; cbn [oc cc bracket_ok]; try congruence; destruct (Nat.even (length es)); cbn; split; congruence.
Qed.
Lemma gt_check o u : (o = 10216 \/ o = 91) -> check_consistency (o :: u ++ [62]) = Ok (Some NoClosing).
Proof. intros H. rewrite check_bracket by exact H. unfold check_closing. destruct (Nat.even _), H as [-> | ->]; reflexivity. Qed.
Lemma bar_check o u : (o = 10216 \/ o = 91) -> check_consistency (o :: u ++ [124]) = Ok (Some NoClosing).
Proof. intros H. rewrite check_bracket by exact H. unfold check_closing. destruct (Nat.even _), H as [-> | ->]; reflexivity. Qed.
Lemma tr5_check u c : c <> 95 -> check_consistency (lit "tr5" ++ u ++ [c]) = match u ++ [c] with _ :: x :: _ => Ok (if x =? 95 then None else Some NoUnderscore) | _ => Err IndexError end.
Proof.
  intros N. unfold check_consistency. change (char_at (lit "tr5" ++ u ++ [c]) 0) with (Ok (A := Z) 116). cbn [rbind].
  rewrite app_assoc, char_last. cbn [rbind]. rewrite <- app_assoc.
  assert (T : is_tr5 (lit "tr5" ++ u ++ [c]) = true) by reflexivity. rewrite T, orb_true_r.
  unfold check_name. rewrite T. change (char_at (lit "tr5" ++ u ++ [c]) 1) with (Ok (A := Z) 114). cbn [rbind rmap Z.eqb Pos.eqb].
  unfold char_at. change (lit "tr5") with [116; 114; 53]. cbn [app nth_error]. destruct (u ++ [c]) as [|a [|x w]]; cbn [nth_error rmap rbind]; try reflexivity.
  rewrite Z.eqb_sym. destruct (x =? 95); reflexivity.
Qed.
Lemma s_check o x u : (o = 115 \/ o = 83) -> x <> 95 -> check_consistency (o :: x :: u) = Ok (Some NoUnderscore).
Proof.
  intros O N. unfold check_consistency. change (char_at (o :: x :: u) 0) with (Ok o). cbn [rbind].
  assert (E : exists c, char_at (o :: x :: u) (length (o :: x :: u) - 1) = Ok c).
  { unfold char_at. destruct (nth_error (o :: x :: u) (length (o :: x :: u) - 1)) as [c|] eqn:E; [eauto|]. apply nth_error_None in E. cbn in E. lia. }
  destruct E as (c & ->). cbn [rbind].
  assert (T : is_tr5 (o :: x :: u) = false).
  { unfold is_tr5. cbn [firstn]. change (lit "tr5") with [116; 114; 53]. cbn [str_eqb]. destruct O as [-> | ->]; reflexivity. }
  unfold check_name. rewrite T. change (char_at (o :: x :: u) 1) with (Ok x). cbn [rbind rmap].
  assert (X : 95 =? x = false) by (apply Z.eqb_neq; lia).
  rewrite X. destruct O as [-> | ->]; reflexivity.
Qed.
Lemma shows_checked e t : shows e t -> exists r, check_consistency t = Ok r /\ (r = None -> accepted e t).
Proof.
  intros S. destruct S; rewrite ?opening_eq, ?closing_eq; cbn [app].
  - exists (Some NoUnderscore). split; [|discriminate]. inversion H as [|? ? A1 X]; subst. inversion X as [|? ? B1 X2]; subst. inversion X2 as [|? ? C1 X3]; subst. inversion X3 as [|? ? D1 _]; subst.
    change (lit "tr5_" ++ digits_text [a; b; c; d]) with (lit "tr5" ++ [95; 48 + a; 48 + b; 48 + c] ++ [48 + d]).
    unfold one_digit in *. rewrite tr5_check by lia. cbn [app]. rewrite (proj2 (Z.eqb_neq _ _)) by lia. reflexivity.
  - exists (Some NoUnderscore). split; [|discriminate].
    change (lit "tr5(" ++ t ++ lit ")") with (lit "tr5" ++ (40 :: t) ++ [41]). rewrite tr5_check by lia. cbn [app].
    assert (E : exists x u, t = x :: u /\ x <> 95).
    { assert (G : forall e, entry_ok e -> exists x u, entry_text e = x :: u /\ x <> 95).
      { intros e0 O. pose proof (entry_chars e0) as Q. destruct (mid_entry e0 O) as [N _]. destruct (entry_text e0) as [|x u]; [congruence|]. exists x, u. split; [reflexivity|]. destruct (Q x O (or_introl eq_refl)); lia. }
      inversion H as [e0 O|e0 es u0 O R E]; subst; destruct (G _ O) as (x & u & -> & N); cbn [app]; eauto. }
    destruct E as (x & u & -> & N). cbn [app]. rewrite (proj2 (Z.eqb_neq _ _)) by lia. reflexivity.
  - exists (Some NoOpening). split; [|discriminate]. unfold check_consistency. change (char_at (lit "tr(" ++ t ++ lit ")") 0) with (Ok (A := Z) 116). cbn [rbind].
    change (lit ")") with [41]. rewrite app_assoc, char_last. rewrite <- app_assoc. reflexivity.
  - exists None. split; [apply check_under; reflexivity|]. intros _. apply acc_Om; assumption.
  - exists None. split; [apply check_under; reflexivity|]. intros _. apply acc_Pi; assumption.
  - exists None. split; [apply check_under; reflexivity|]. intros _. apply acc_Delta; assumption.
  - exists None. split; [apply check_under; reflexivity|]. intros _. apply acc_Delta3; assumption.
  - exists None. split; [reflexivity|]. intros _. constructor.
  - exists (Some NoOpening). split; [|discriminate]. destruct H as [<-|[<-|[]]]; apply check_other; (reflexivity || discriminate).
  - destruct H0 as [-> | ->].
    + exists None. split; [destruct H as [<-|[<-|[]]]; apply check_under; reflexivity|]. intros _. apply acc_S; assumption.
    + exists (Some NoUnderscore). split; [|discriminate]. destruct H1 as [N F]. destruct ls as [|x ls]; [congruence|]. inversion F as [|? ? X _]; subst. unfold one_digit in X.
      destruct H as [<-|[<-|[]]]; (apply s_check; [cbn; auto|lia]).
  - destruct H1 as [-> | ->].
    + destruct H2 as [-> | ->].
      * exists None. split; [exact (two_check 10216 a b 10217 (or_introl eq_refl) eq_refl H H0)|]. intros _. apply acc_A2; assumption.
      * exists (Some NoClosing). split; [|discriminate]. cbn [oc cc]. unfold c_la, c_gt. change (lit "|") with [124]. cbn [app].
        replace (10216 :: dec a ++ 124 :: dec b ++ [62]) with (10216 :: (dec a ++ 124 :: dec b) ++ [62]) by (rewrite <- app_assoc; reflexivity). apply gt_check; auto.
    + exists (Some NoOpening). split; [|discriminate]. apply check_other; (reflexivity || discriminate).
  - exists (match o with OLt => Some NoOpening | _ => Some NoClosing end). split; [|destruct o; discriminate].
    destruct H0 as [-> | ->]; [apply (bar_check 10216 (dec a)); auto|apply check_other; (reflexivity || discriminate)].
  - exists (Some NoOpening). split; [|discriminate]. apply check_other; (reflexivity || discriminate).
  - exists None. split; [exact (two_check 91 a b 93 (or_intror eq_refl) eq_refl H H0)|]. intros _. apply acc_S2; assumption.
  - exists (Some NoOpening). split; [|discriminate]. apply check_other; (reflexivity || discriminate).
  - exists (Some NoClosing). split; [|discriminate]. apply (bar_check 91 (dec b)); auto.
  - destruct (Z.eq_dec (oc o) 60) as [E|E].
    + exists (Some NoOpening). split; [|discriminate]. rewrite E. apply check_other; (reflexivity || discriminate).
    + assert (O : oc o = 10216 \/ oc o = 91) by (destruct o; [left; reflexivity|destruct (E eq_refl)|right; reflexivity]). assert (N : o <> OLt) by (intros ->; apply E; reflexivity).
      change (lit "|") with [124]. cbn [app].
      destruct (Z.eq_dec (cc c) 62) as [G|G].
      * exists (Some NoClosing). split; [|discriminate]. rewrite G.
        replace (oc o :: dec a ++ 124 :: t ++ 124 :: dec d ++ [62]) with (oc o :: (dec a ++ 124 :: t ++ 124 :: dec d) ++ [62]) by (repeat (rewrite <- app_assoc; cbn [app]); reflexivity).
        apply gt_check; exact O.
      * exists (check_closing (oc o) (cc c) (length es + 2)). split; [apply chain_check; auto; destruct c; [reflexivity|destruct (G eq_refl)|reflexivity]|].
        intros Q. apply closing_fits in Q; [|exact N]. pose proof (acc_chain o a es t d c H H0 H1 N Q) as R. rewrite opening_eq, closing_eq in R. exact R.
  - exists (Some NoOpening). split; [|discriminate]. apply check_other; (reflexivity || discriminate).
  - exists (Some NoClosing). split; [|discriminate].
    assert (O : oc o = 10216 \/ oc o = 91) by (destruct o; cbn in *; auto; congruence). change (lit "|") with [124]. cbn [app].
    replace (oc o :: dec a ++ 124 :: t ++ [124]) with (oc o :: (dec a ++ 124 :: t) ++ [124]) by (rewrite <- app_assoc; reflexivity). apply bar_check; exact O.
  - exists (Some NoOpening). split; [|discriminate]. apply check_other; (reflexivity || discriminate).
Qed.
Lemma accepted_checked e t : accepted e t -> shows e t /\ check_consistency t = Ok None.
Proof.
  intros A. destruct A; rewrite ?opening_eq, ?closing_eq; cbn [app].
  - split; [pose proof (w_chain o a es t d c H H0 H1) as R; rewrite opening_eq, closing_eq in R; exact R|].
    assert (G : bracket_ok o (length es) CGt = false) by (destruct o; cbn; try congruence; destruct (Nat.even (length es)); reflexivity).
    change (lit "|") with [124]. cbn [app]. rewrite (chain_check (oc o) a es t d (cc c)); auto; [|destruct o; cbn; auto; congruence|destruct c; try reflexivity; congruence].
    f_equal. apply closing_fits; assumption.
  - split; [apply (w_A2 a b OAng CAng); unfold angle_open, angle_close; auto|exact (two_check 10216 a b 10217 (or_introl eq_refl) eq_refl H H0)].
  - split; [apply w_S2; assumption|exact (two_check 91 a b 93 (or_intror eq_refl) eq_refl H H0)].
  - split; [apply w_S; unfold underscore; auto|]. destruct H as [<-|[<-|[]]]; apply check_under; reflexivity.
  - split; [apply w_Om; assumption|apply check_under; reflexivity].
  - split; [apply w_Pi; assumption|apply check_under; reflexivity].
  - split; [apply w_Delta; assumption|apply check_under; reflexivity].
  - split; [apply w_Delta3; assumption|apply check_under; reflexivity].
  - split; [apply w_delta5|reflexivity].
Qed.
Lemma checked_iff e t : shows e t -> (exists r, check_consistency t = Ok r) /\ (check_consistency t = Ok None <-> accepted e t).
Proof.
  intros S. destruct (shows_checked e t S) as (r & E & A). split; [eauto|]. split; [intros E'; apply A; congruence|apply accepted_checked].
Qed.
(* the check and compute agree about unicode chains *)
Lemma chain_refused {K : Fld} (s : ps K) B f o a es t d c : 0 <= a -> 0 <= d -> shows_entries es t -> o <> OLt -> c <> CGt ->
  check_consistency (opening o ++ dec a ++ lit "|" ++ t ++ lit "|" ++ dec d ++ closing c) <> Ok None ->
  compute_text (S f) s B (opening o ++ dec a ++ lit "|" ++ t ++ lit "|" ++ dec d ++ closing c) = Err SyntaxError.
Proof.
  intros A D S O C N. pose proof (w_chain o a es t d c A D S) as W.
  assert (Q : bracket_ok o (length es) c = false).
  { destruct (bracket_ok o (length es) c) eqn:E; [|reflexivity]. exfalso. apply N. apply (accepted_checked (IChain o a es d c)). apply acc_chain; assumption. }
  destruct (read_bold (IChain o a es d c) _ _ W (in_bold_refl _)) as (t' & U & R). cbn [compute_text]. rewrite U. cbn [rbind]. rewrite R. cbn [compute]. unfold c_chain. rewrite Q. reflexivity.
Qed.
Lemma is_tr5_inv t : is_tr5 t = true -> exists u, t = lit "tr5" ++ u.
Proof.
  unfold is_tr5. change (lit "tr5") with [116; 114; 53]. destruct t as [|a [|b [|c u]]]; cbn [firstn str_eqb]; rewrite ?andb_false_r; try discriminate.
  rewrite !andb_true_iff, !Z.eqb_eq. intros (-> & -> & -> & _). exists u. reflexivity.
Qed.
Lemma raises_short t : (exists e, check_consistency t = Err e) <-> too_short t.
Proof.
  split.
  - intros [e H]. unfold check_consistency in H. destruct t as [|o u]; [constructor|].
    change (char_at (o :: u) 0) with (Ok o) in H. cbn [rbind] in H.
    assert (E : exists c, char_at (o :: u) (length (o :: u) - 1) = Ok c).
    { unfold char_at. destruct (nth_error (o :: u) (length (o :: u) - 1)) as [c|] eqn:E; [eauto|]. apply nth_error_None in E. cbn in E. lia. }
    destruct E as (c & E). rewrite E in H. cbn [rbind] in H.
    destruct (is_letter6 o || is_tr5 (o :: u))%bool eqn:L; [|destruct (_ && _)%bool; discriminate].
    destruct u as [|x u].
    { apply orb_true_iff in L as [L|L].
      - apply short_letter. unfold is_letter6 in L. apply existsb_exists in L as (y & I & Y). apply Z.eqb_eq in Y. subst. exact I.
      - exfalso. unfold is_tr5 in L. cbn [firstn] in L. change (lit "tr5") with [116; 114; 53] in L. cbn [str_eqb] in L. rewrite andb_false_r in L. discriminate. }
    assert (T4 : (if is_tr5 (o :: x :: u) then rmap (Z.eqb 95) (char_at (o :: x :: u) 4) else Ok false) = Err e).
    { unfold check_name in H. change (char_at (o :: x :: u) 1) with (Ok x) in H.
      assert (F : (if o =? 948 then rmap (Z.eqb 53) (Ok x) else Ok false) = Ok (if o =? 948 then 53 =? x else false)) by (destruct (o =? 948); reflexivity).
      rewrite F in H. cbn [rbind rmap] in H. destruct (if o =? 948 then 53 =? x else false); [discriminate|]. destruct (95 =? x); [discriminate|].
      destruct (if is_tr5 (o :: x :: u) then _ else _) as [[|]|e']; cbn [rbind] in H; congruence. }
    destruct (is_tr5 (o :: x :: u)) eqn:T; [|discriminate]. apply is_tr5_inv in T as (w & T). rewrite T in T4 |- *. clear - T4.
    destruct w as [|y [|z w]]; [apply short_tr5|apply short_tr5_|discriminate].
  - intros S. exists IndexError. destruct S as [|c I| |c]; try reflexivity.
    cbn in I. destruct I as [<-|[<-|[<-|[<-|[<-|[<-|[]]]]]]]; reflexivity.
Qed.
