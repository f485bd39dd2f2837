(* compute reads every string of TextSpec.v as what it shows. *)
From Coq Require Import Ascii String.
From Coq Require Import List ZArith Bool Lia.
From Verif Require Import Base Fld Phase Compute Symm Str MassesThm GenSpec GenThm Parse ParseSpec ParseChars Regex RegexThm Text TextSpec TextThm TextThm2 TextThm3.
Import ListNotations.
Open Scope Z_scope.

Lemma no_first' r t c u : t = c :: u -> firsts r c = false -> search r t = None.
Proof. intros ->. apply no_first. Qed.
Lemma no_last' r t c u : t = u ++ [c] -> lasts r c = false -> search r t = None.
Proof. intros ->. apply no_last. Qed.
Ltac gone E1 E2 := repeat match goal with |- context [search ?r ?t] =>
  first [rewrite (no_first' r t _ _ E1) by reflexivity | rewrite (no_last' r t _ _ E2) by reflexivity] end.
Lemma cons_snoc (o : Z) w c o' w' c' : o :: w ++ [c] = o' :: w' ++ [c'] -> o = o' /\ w = w' /\ c = c'.
Proof. intros E. injection E as -> E. apply app_inj_tail in E. destruct E. auto. Qed.

Section One.
Variables (f1 f2 : Z -> bool).
Let r1 := RSeq (RChr f1) (RSeq (RGrp 1 rnum) (RChr f2)).
Let r2 := RSeq (RChr f1) (RSeq (RGrp 1 rnum) (RSeq (rc c_bar) (RSeq (RGrp 2 rnum) (RChr f2)))).
Lemma no_one t o w c : t = o :: w ++ [c] -> In 124 w -> search r1 t = None.
Proof.
  intros -> I. apply search_none. intros g P. apply shape_one in P. destruct P as (o' & a & c' & E & _ & _ & D & _). apply cons_snoc in E. destruct E as (_ & -> & _).
  apply (digs_in _ _ D) in I. lia.
Qed.
Lemma no_two t o a w c : t = o :: a ++ 124 :: w ++ [c] -> digs a -> In 124 w -> search r2 t = None.
Proof.
  intros -> A I. apply search_none. intros g P. apply shape_two in P. destruct P as (o' & a' & b & c' & E & _ & _ & D & D' & _). injection E as _ E.
  apply digits_split in E; try (apply A || apply D || (right; lia)). destruct E as (_ & _ & E). apply app_inj_tail in E. destruct E as [-> _]. apply (digs_in _ _ D') in I. lia.
Qed.
Lemma found_one t o a c : t = o :: a ++ [c] -> digs a -> f1 o = true -> f2 c = true -> search r1 t = Some [(1%nat, a)].
Proof.
  intros -> A O C. apply search_unique.
  - apply shape_one. exists o, a, c. auto.
  - intros g P. apply shape_one in P. destruct P as (o' & a' & c' & E & _ & _ & _ & ->). apply cons_snoc in E. destruct E as (_ & -> & _). reflexivity.
Qed.
Lemma found_two t o a b c : t = o :: a ++ 124 :: b ++ [c] -> digs a -> digs b -> f1 o = true -> f2 c = true -> search r2 t = Some [(1%nat, a); (2%nat, b)].
Proof.
  intros -> A B O C. apply search_unique.
  - apply shape_two. exists o, a, b, c. auto 6.
  - intros g P. apply shape_two in P. destruct P as (o' & a' & b' & c' & E & _ & _ & D & D' & ->). injection E as _ E.
    apply digits_split in E; try (apply A || apply D || (right; lia)). destruct E as (-> & _ & E). apply app_inj_tail in E. destruct E as [-> _]. reflexivity.
Qed.
End One.
Lemma found_NB t o a m d c : t = o :: a ++ 124 :: m ++ 124 :: d ++ [c] -> digs a -> digs d -> par nb_mid m [] -> In o [c_lt; c_la; c_ls] -> In c [c_ra; c_rs; c_gt] ->
  search pNB t = Some [(1%nat, a); (2%nat, m); (3%nat, d)].
Proof.
  intros -> A D N O C. apply search_unique.
  - apply shape_NB. exists o, a, m, d, c. repeat match goal with |- _ /\ _ => split end; auto.
  - intros g P. apply shape_NB in P. destruct P as (o' & a' & m' & d' & c' & E & _ & _ & A' & D' & _ & ->). injection E as _ E.
    apply digits_split in E; try (apply A || apply A' || (right; lia)). destruct E as (-> & _ & E).
    rewrite !app_comm_cons, !app_assoc in E. apply app_inj_tail in E. destruct E as [E _]. apply digits_split_r in E; [|assumption|assumption|right; lia|right; lia]. destruct E as (-> & _ & ->). reflexivity.
Qed.
Lemma found_ob t m d c : t = 124 :: m ++ 124 :: d ++ [c] -> digs d -> par open_mid m [] -> In c [c_ra; c_rs] -> search pNB_open_begin t = Some [(2%nat, m); (3%nat, d)].
Proof.
  intros -> D N C. apply search_unique.
  - apply shape_ob. exists m, d, c. repeat match goal with |- _ /\ _ => split end; auto.
  - intros g P. apply shape_ob in P. destruct P as (m' & d' & c' & E & _ & D' & _ & ->). injection E as E.
    rewrite !app_comm_cons, !app_assoc in E. apply app_inj_tail in E. destruct E as [E _]. apply digits_split_r in E; [|assumption|assumption|right; lia|right; lia]. destruct E as (-> & _ & ->). reflexivity.
Qed.
Lemma found_oe t o a m : t = o :: a ++ 124 :: m ++ [124] -> digs a -> par open_mid m [] -> In o [c_la; c_ls] -> search pNB_open_end t = Some [(1%nat, a); (2%nat, m)].
Proof.
  intros -> D N C. apply search_unique.
  - apply shape_oe. exists o, a, m. repeat match goal with |- _ /\ _ => split end; auto.
  - intros g P. apply shape_oe in P. destruct P as (o' & a' & m' & E & _ & D' & _ & ->). injection E as _ E.
    apply digits_split in E; try (apply D || apply D' || (right; lia)). destruct E as (-> & _ & E). apply app_inj_tail in E. destruct E as [-> _]. reflexivity.
Qed.
Lemma found_do t m : t = 124 :: m ++ [124] -> par open_mid m [] -> search pNB_double_open t = Some [(2%nat, m)].
Proof.
  intros -> N. apply search_unique.
  - apply shape_do. exists m. auto.
  - intros g P. apply shape_do in P. destruct P as (m' & E & _ & ->). apply cons_snoc in E. destruct E as (_ & -> & _). reflexivity.
Qed.

(* ---- one string after the other ---- *)
Definition oc (o : obr) : Z := match o with OAng => c_la | OLt => c_lt | OSq => c_ls end.
Definition cc (c : cbr) : Z := match c with CAng => c_ra | CGt => c_gt | CSq => c_rs end.
Lemma opening_eq o : opening o = [oc o]. Proof. destruct o; reflexivity. Qed.
Lemma closing_eq c : closing c = [cc c]. Proof. destruct c; reflexivity. Qed.
Lemma obr_eq o u : obr_of (oc o :: u) = o. Proof. destruct o; reflexivity. Qed.
Lemma cbr_eq c u : cbr_of (u ++ [cc c]) = c. Proof. unfold cbr_of. rewrite last_last. destruct c; reflexivity. Qed.
Lemma bar_in (a b : pystr) : In 124 (a ++ 124 :: b). Proof. apply in_or_app. right. left. reflexivity. Qed.

Lemma read_A2 a b o c : 0 <= a -> 0 <= b -> angle_open o -> angle_close c -> classify (oc o :: dec a ++ 124 :: dec b ++ [cc c]) = TInv (IA2 a b).
Proof.
  intros A B O C. set (t := oc o :: _). assert (E : t = oc o :: dec a ++ 124 :: dec b ++ [cc c]) by reflexivity. clearbody t. unfold classify.
  assert (F : search pA2 t = Some [(1%nat, dec a); (2%nat, dec b)]). { eapply found_two; eauto using digs_dec; [destruct O as [-> | ->]|destruct C as [-> | ->]]; reflexivity. }
  destruct O as [-> | ->]; cbn [oc] in *; gone E E; rewrite F; cbn [group Nat.eqb]; rewrite !number_dec by assumption; reflexivity.
Qed.
Lemma read_S2 a b : 0 <= a -> 0 <= b -> classify (91 :: dec a ++ 124 :: dec b ++ [93]) = TInv (IS2 a b).
Proof.
  intros A B. set (t := 91 :: _). assert (E : t = 91 :: dec a ++ 124 :: dec b ++ [93]) by reflexivity. clearbody t. unfold classify.
  assert (F : search pS2 t = Some [(1%nat, dec a); (2%nat, dec b)]). { eapply found_two; eauto using digs_dec. }
  gone E E; rewrite F; cbn [group Nat.eqb]; rewrite !number_dec by assumption; reflexivity.
Qed.
Lemma read_Au a o : 0 <= a -> angle_open o -> classify (oc o :: dec a ++ [124]) = TInv (IAu a).
Proof.
  intros A O. set (t := oc o :: _). assert (E : t = oc o :: dec a ++ [124]) by reflexivity. clearbody t. unfold classify.
  assert (F : search pAu t = Some [(1%nat, dec a)]). { eapply found_one; eauto using digs_dec. destruct O as [-> | ->]; reflexivity. }
  pose proof E as E2. rewrite app_comm_cons in E2.
  destruct O as [-> | ->]; cbn [oc] in *; gone E E2; rewrite F; cbn [group Nat.eqb]; rewrite !number_dec by assumption; reflexivity.
Qed.
Lemma read_Ad b c : 0 <= b -> angle_close c -> classify (124 :: dec b ++ [cc c]) = TInv (IAd b).
Proof.
  intros A O. set (t := 124 :: _). assert (E : t = 124 :: dec b ++ [cc c]) by reflexivity. clearbody t. unfold classify.
  assert (F : search pAd t = Some [(1%nat, dec b)]). { eapply found_one; eauto using digs_dec. destruct O as [-> | ->]; reflexivity. }
  pose proof E as E2. rewrite app_comm_cons in E2.
  gone E E2; rewrite F; cbn [group Nat.eqb]; rewrite !number_dec by assumption; reflexivity.
Qed.
Lemma read_Su a : 0 <= a -> classify (124 :: dec a ++ [93]) = TInv (ISu a).
Proof.
  intros A. set (t := 124 :: _). assert (E : t = 124 :: dec a ++ [93]) by reflexivity. clearbody t. unfold classify.
  assert (F : search pSu t = Some [(1%nat, dec a)]). { eapply found_one; eauto using digs_dec. }
  pose proof E as E2. rewrite app_comm_cons in E2. gone E E2; rewrite F; cbn [group Nat.eqb]; rewrite !number_dec by assumption; reflexivity.
Qed.
Lemma read_Sd b : 0 <= b -> classify (91 :: dec b ++ [124]) = TInv (ISd b).
Proof.
  intros A. set (t := 91 :: _). assert (E : t = 91 :: dec b ++ [124]) by reflexivity. clearbody t. unfold classify.
  assert (F : search pSd t = Some [(1%nat, dec b)]). { eapply found_one; eauto using digs_dec. }
  pose proof E as E2. rewrite app_comm_cons in E2. gone E E2; rewrite F; cbn [group Nat.eqb]; rewrite !number_dec by assumption; reflexivity.
Qed.
Lemma read_chain o a es m d c : 0 <= a -> 0 <= d -> shows_entries es m ->
  classify (oc o :: dec a ++ 124 :: m ++ 124 :: dec d ++ [cc c]) = TInv (IChain o a es d c).
Proof.
  intros A D M. set (t := oc o :: _). assert (E : t = oc o :: dec a ++ 124 :: m ++ 124 :: dec d ++ [cc c]) by reflexivity. clearbody t.
  assert (E2 : t = (oc o :: dec a ++ 124 :: m ++ 124 :: dec d) ++ [cc c]). { rewrite E. cbn [app]. rewrite <- !app_assoc. cbn [app]. rewrite <- !app_assoc. reflexivity. }
  assert (E3 : t = oc o :: dec a ++ 124 :: (m ++ 124 :: dec d) ++ [cc c]). { rewrite E. rewrite <- !app_assoc. reflexivity. }
  assert (F : search pNB t = Some [(1%nat, dec a); (2%nat, m); (3%nat, dec d)]).
  { eapply found_NB; eauto using digs_dec, nb_entries; [destruct o|destruct c]; cbn; auto. }
  assert (F1 : search pA2 t = None). { eapply no_two; eauto using digs_dec, bar_in. }
  assert (F2 : search pS2 t = None). { eapply no_two; eauto using digs_dec, bar_in. }
  assert (F3 : search pAu t = None). { eapply no_last'; eauto. destruct c; reflexivity. }
  assert (F4 : search pSd t = None). { eapply no_last'; eauto. destruct c; reflexivity. }
  unfold classify. rewrite F, F1, F2, F3, F4. replace (obr_of t) with o by (rewrite E, obr_eq; reflexivity). replace (cbr_of t) with c by (rewrite E2, cbr_eq; reflexivity).
  clear E3 F F1 F2 F3 F4 E2. destruct o; cbn [oc] in E; gone E E; cbn [group Nat.eqb]; unfold with_middle; rewrite (middle_text _ _ M), !number_dec by assumption; reflexivity.
Qed.
Definition open_mids (es : list entry) (t : pystr) := shows_bare es t \/ length es = 1%nat /\ shows_entries es t.
Lemma read_open_begin es m d c : 0 <= d -> c <> CGt -> open_mids es m -> classify (124 :: m ++ 124 :: dec d ++ [cc c]) = TInv (IOpenBegin es d c).
Proof.
  intros D C M. apply open_entries in M. destruct M as [P M]. set (t := 124 :: _). assert (E : t = 124 :: m ++ 124 :: dec d ++ [cc c]) by reflexivity. clearbody t.
  assert (E2 : t = (124 :: m ++ 124 :: dec d) ++ [cc c]). { rewrite E. cbn [app]. rewrite <- !app_assoc. reflexivity. }
  assert (E3 : t = 124 :: (m ++ 124 :: dec d) ++ [cc c]) by exact E2.
  assert (F : search pNB_open_begin t = Some [(2%nat, m); (3%nat, dec d)]). { eapply found_ob; eauto using digs_dec. destruct c; cbn; auto; congruence. }
  assert (F1 : search pAd t = None). { eapply no_one; eauto using bar_in. }
  assert (F2 : search pSu t = None). { eapply no_one; eauto using bar_in. }
  unfold classify. rewrite F, F1, F2. replace (cbr_of t) with c by (rewrite E2, cbr_eq; reflexivity). gone E E.
  cbn [group Nat.eqb]; unfold with_middle; rewrite M, !number_dec by assumption; reflexivity.
Qed.
Lemma read_open_end o a es m : 0 <= a -> o <> OLt -> open_mids es m -> classify (oc o :: dec a ++ 124 :: m ++ [124]) = TInv (IOpenEnd o a es).
Proof.
  intros A O M. apply open_entries in M. destruct M as [P M]. set (t := oc o :: _). assert (E : t = oc o :: dec a ++ 124 :: m ++ [124]) by reflexivity. clearbody t.
  assert (E2 : t = (oc o :: dec a ++ 124 :: m) ++ [124]). { rewrite E. cbn [app]. rewrite <- !app_assoc. reflexivity. }
  assert (E3 : t = oc o :: (dec a ++ 124 :: m) ++ [124]) by exact E2.
  assert (F : search pNB_open_end t = Some [(1%nat, dec a); (2%nat, m)]). { eapply found_oe; eauto using digs_dec. destruct o; cbn; auto; congruence. }
  assert (F1 : search pAu t = None). { eapply no_one; eauto using bar_in. }
  assert (F2 : search pSd t = None). { eapply no_one; eauto using bar_in. }
  unfold classify. rewrite F, F1, F2. replace (obr_of t) with o by (rewrite E, obr_eq; reflexivity).
  destruct o; [| congruence |]; cbn [oc] in E; gone E E2; cbn [group Nat.eqb]; unfold with_middle; rewrite M, !number_dec by assumption; reflexivity.
Qed.
Lemma read_double es m : open_mids es m -> classify (124 :: m ++ [124]) = TInv (IDouble es).
Proof.
  intros M. apply open_entries in M. destruct M as [P M]. set (t := 124 :: _). assert (E : t = 124 :: m ++ [124]) by reflexivity. clearbody t.
  assert (E2 : t = (124 :: m) ++ [124]) by exact E.
  assert (F : search pNB_double_open t = Some [(2%nat, m)]). { eapply found_do; eauto. }
  unfold classify. rewrite F. gone E E2. cbn [group Nat.eqb]; unfold with_middle; rewrite M; reflexivity.
Qed.
Lemma read_pre r x l : r = RSeq (rlit [x; 95]) (RGrp 1 rnum) -> legs l -> search r (x :: 95 :: digits_text l) = Some [(1%nat, digits_text l)].
Proof.
  intros -> L. apply search_unique.
  - apply shape_pre. exists (digits_text l). auto using digs_text.
  - intros g P. apply shape_pre in P. destruct P as (d & E & _ & ->). injection E as ->. reflexivity.
Qed.
Lemma read_Om l : legs l -> classify (937 :: 95 :: digits_text l) = TInv (IOm l).
Proof.
  intros L. set (t := 937 :: _). assert (E : t = 937 :: 95 :: digits_text l) by reflexivity. clearbody t. unfold classify.
  assert (F : search pOijk t = Some [(1%nat, digits_text l)]). { rewrite E. apply read_pre; auto. }
  rewrite F. gone E E. cbn [group Nat.eqb]. rewrite labels_text. reflexivity.
Qed.
Lemma read_Pi l : legs l -> classify (928 :: 95 :: digits_text l) = TInv (IPi l).
Proof.
  intros L. set (t := 928 :: _). assert (E : t = 928 :: 95 :: digits_text l) by reflexivity. clearbody t. unfold classify.
  assert (F : search pPijk t = Some [(1%nat, digits_text l)]). { rewrite E. apply read_pre; auto. }
  rewrite F. gone E E. cbn [group Nat.eqb]. rewrite labels_text. reflexivity.
Qed.
Lemma found_D m : par d_mid m [] -> search pDijk (916 :: 95 :: m) = Some [(1%nat, m)].
Proof.
  intros P. apply search_unique.
  - apply shape_D. exists m. auto.
  - intros g Q. apply shape_D in Q. destruct Q as (m' & E & _ & ->). injection E as ->. reflexivity.
Qed.
Lemma read_Delta3 l : legs l -> classify (916 :: 95 :: digits_text l) = TInv (IDelta3 l).
Proof.
  intros L. set (t := 916 :: _). assert (E : t = 916 :: 95 :: digits_text l) by reflexivity. clearbody t. unfold classify.
  assert (F : search pDijk t = Some [(1%nat, digits_text l)]). { rewrite E. apply found_D. apply (corner_text [l]). apply last_corner, L. }
  rewrite F. gone E E. cbn [group Nat.eqb]. cbv zeta. destruct (existsb (Z.eqb c_bar) (digits_text l)) eqn:X.
  - apply existsb_exists in X. destruct X as (x & I & X). apply Z.eqb_eq in X. subst x. apply (digs_in _ _ (digs_text l L)) in I. unfold c_bar in I. lia.
  - rewrite labels_text. reflexivity.
Qed.
Lemma read_Delta cs u : (2 <= length cs)%nat -> shows_corners cs u -> classify (916 :: 95 :: u) = TInv (IDelta cs).
Proof.
  intros N S. set (t := 916 :: _). assert (E : t = 916 :: 95 :: u) by reflexivity. clearbody t. unfold classify. destruct (corner_text _ _ S) as (P & Q & _).
  assert (F : search pDijk t = Some [(1%nat, u)]). { rewrite E. apply found_D, P. }
  rewrite F. gone E E. cbn [group Nat.eqb]. cbv zeta. replace (existsb (Z.eqb c_bar) u) with true.
  - unfold c_bar. rewrite Q, map_map. rewrite (map_ext _ (fun l => l)) by (intros; apply labels_text). rewrite map_id. reflexivity.
  - symmetry. apply existsb_exists. exists 124. split; [|reflexivity]. inversion S; subst; [cbn in N; lia|]. apply bar_in.
Qed.
Lemma read_M i l u : In l [109; 77] -> underscore u -> one_digit i -> classify (l :: u ++ [48 + i]) = TInv (IM i).
Proof.
  intros L U I. set (t := l :: _). assert (E : t = l :: u ++ [48 + i]) by reflexivity. clearbody t. unfold classify.
  assert (F : search pMi t = Some [(1%nat, [48 + i])]).
  { apply search_unique.
    - apply shape_M. exists l, u, (48 + i). repeat match goal with |- _ /\ _ => split end; auto. apply is_digit_iff. unfold one_digit in I. lia.
    - intros g P. apply shape_M in P. destruct P as (l' & u' & d & E' & _ & _ & _ & ->). rewrite E in E'. apply cons_snoc in E'. destruct E' as (_ & _ & ->). reflexivity. }
  rewrite F. clear F. destruct L as [<-|[<-|[]]]; gone E E; cbn [group Nat.eqb]; unfold number; cbn [fold_left]; repeat f_equal; lia.
Qed.
Lemma read_S ls l u : In l [115; 83] -> underscore u -> legs ls -> classify (l :: u ++ digits_text ls) = TInv (IS ls).
Proof.
  intros L U D. set (t := l :: _). assert (E : t = l :: u ++ digits_text ls) by reflexivity. clearbody t. unfold classify.
  assert (F : search pSijk t = Some [(1%nat, digits_text ls)]).
  { apply search_unique.
    - apply shape_S. exists l, u, (digits_text ls). repeat match goal with |- _ /\ _ => split end; auto using digs_text.
    - intros g P. apply shape_S in P. destruct P as (l' & u' & d & E' & _ & U' & D' & ->). rewrite E in E'. injection E' as _ E'.
      assert (X : forall v, digs v -> v <> 95 :: tl v). { intros [|x v] V; [discriminate|]. cbn. intros Q. injection Q as ->. pose proof (digs_in _ 95 V (or_introl eq_refl)). lia. }
      destruct U as [-> | ->]; destruct U' as [-> | ->]; change (lit "_") with [95] in *; cbn [app] in E'.
      + injection E' as ->. reflexivity.
      + exfalso. apply (X d D'). rewrite <- E'. reflexivity.
      + exfalso. apply (X _ (digs_text ls D)). rewrite E'. reflexivity.
      + rewrite E'. reflexivity. }
  rewrite F. clear F. destruct L as [<-|[<-|[]]]; gone E E; cbn [group Nat.eqb]; rewrite labels_text; reflexivity.
Qed.
Lemma read_tr es m : shows_entries es m -> classify (lit "tr(" ++ m ++ [41]) = TInv (ITr es).
Proof.
  intros S. unfold classify. replace (search ptr5 _) with (@None caps).
  - replace (search ptr _) with (Some [(2%nat, m)]); [cbn [group Nat.eqb]; unfold with_middle; rewrite (middle_text _ _ S); reflexivity|].
    symmetry. apply search_unique.
    + apply shape_tr. exists m. eauto using tr_entries.
    + intros g P. apply shape_tr in P. destruct P as (m' & E & _ & ->). apply app_inv_head in E. apply app_inj_tail in E. destruct E as [-> _]. reflexivity.
  - symmetry. apply search_none. intros g P. apply shape_tr5 in P. destruct P as [(d & E & _)|(d & E & _)]; discriminate E.
Qed.
Lemma entries_digits l : Forall one_digit l -> entries_of (map (fun c => [c]) (digits_text l)) = Some (map (fun i => (i, [])) l).
Proof.
  induction 1 as [|i l H F IH]; [reflexivity|]. unfold digits_text in *. cbn [map entries_of]. rewrite IH.
  replace [48 + i] with (entry_text (i, [])); [rewrite entry_of_text; [reflexivity|split; [unfold one_digit in H; cbn; lia|constructor]]|].
  rewrite entry_text_cons. cbn [map concat]. rewrite app_nil_r. rewrite dec_digit by exact H. reflexivity.
Qed.
Lemma read_tr5 a b c d : Forall one_digit [a; b; c; d] -> classify (lit "tr5_" ++ digits_text [a; b; c; d]) = TInv (ITr5 (a, []) (b, []) (c, []) (d, [])).
Proof.
  intros F. pose proof (digs_text [a; b; c; d] ltac:(split; [discriminate|exact F])) as D. unfold classify.
  replace (search ptr5 _) with (Some [(1%nat, digits_text [a; b; c; d])]).
  - replace (existsb (Z.eqb 95) (lit "tr5_" ++ digits_text [a; b; c; d])) with true by reflexivity. cbn [group Nat.eqb]. unfold tr5_class.
    destruct (existsb (Z.eqb c_bar) (digits_text [a; b; c; d])) eqn:X.
    + apply existsb_exists in X. destruct X as (x & I & X). apply Z.eqb_eq in X. subst x. apply (digs_in _ _ D) in I. unfold c_bar in I. lia.
    + pose proof (entries_digits _ F) as Q. cbn [digits_text map] in *. match goal with |- match ?X with _ => _ end = _ => replace X with (Some [(a, @nil (bool * Z)); (b, []); (c, []); (d, [])]) by (symmetry; exact Q) end. reflexivity.
  - symmetry. apply search_unique.
    + apply shape_tr5. left. eauto.
    + intros g P. apply shape_tr5 in P. destruct P as [(d' & E & _ & ->)|(d' & E & _)]; [|discriminate E]. apply app_inv_head in E. rewrite E. reflexivity.
Qed.
Lemma read_tr5_round a b c d m : shows_bare [a; b; c; d] m -> classify (lit "tr5(" ++ m ++ [41]) = TInv (ITr5 a b c d).
Proof.
  intros S. destruct (mid_bare _ _ S) as [N F]. destruct (split_bare _ _ S) as [Q O]. unfold classify. replace (search ptr5 _) with (Some [(2%nat, m)]).
  - destruct (existsb (Z.eqb 95) (lit "tr5(" ++ m ++ [41])) eqn:X.
    + exfalso. apply existsb_exists in X. destruct X as (x & I & X). apply Z.eqb_eq in X. subst x. apply in_app_or in I. destruct I as [I|I]; [cbn in I; intuition discriminate|].
      apply in_app_or in I. destruct I as [I|I]; [|cbn in I; intuition discriminate]. rewrite Forall_forall in F. specialize (F _ I). discriminate.
    + cbn [group Nat.eqb]. unfold tr5_class, c_bar. replace (existsb (Z.eqb 124) m) with true.
      * rewrite Q. pose proof (entries_text _ O) as Y. cbn [map] in *. rewrite Y. reflexivity.
      * symmetry. apply existsb_exists. exists 124. split; [|reflexivity]. inversion S; subst. apply bar_in.
  - symmetry. apply search_unique.
    + apply shape_tr5. right. eauto.
    + intros g P. apply shape_tr5 in P. destruct P as [(d' & E & _)|(d' & E & _ & _ & ->)]; [discriminate E|]. apply app_inv_head in E. apply app_inj_tail in E. destruct E as [-> _]. reflexivity.
Qed.
Theorem classify_shows e t : shows e t -> classify t = TInv e.
Proof.
  intros S. destruct S; rewrite ?opening_eq, ?closing_eq; cbn [app].
  - apply read_tr5; assumption.
  - apply read_tr5_round; assumption.
  - apply read_tr; assumption.
  - apply read_Om; assumption.
  - apply read_Pi; assumption.
  - apply read_Delta; assumption.
  - apply read_Delta3; assumption.
  - vm_compute. reflexivity.
  - destruct H as [<-|[<-|[]]]; apply (read_M i); cbn; auto.
  - destruct H as [<-|[<-|[]]]; apply read_S; cbn; auto.
  - apply read_A2; assumption.
  - apply read_Au; assumption.
  - apply read_Ad; assumption.
  - apply read_S2; assumption.
  - apply read_Su; assumption.
  - apply read_Sd; assumption.
  - apply read_chain; assumption.
  - apply read_open_begin; assumption.
  - apply read_open_end; assumption.
  - apply read_double; assumption.
Qed.

(* ---- bold digits ---- *)
Definition bolds : list Z := map (Z.add 120782) [0; 1; 2; 3; 4; 5; 6; 7; 8; 9].
Definition thin (c : Z) : Z := if (120782 <=? c) && (c <=? 120791) then c - 120734 else c.
Lemma first_bold d c s : d = dict_update [] (map (fun kv => (snd kv, fst kv)) bold_digits) ->
  first_match d (c :: s) = if (120782 <=? c) && (c <=? 120791) then Some ([c], [thin c]) else None.
Proof.
  intros ->. unfold thin. destruct ((120782 <=? c) && (c <=? 120791)) eqn:E.
  - apply andb_prop in E. destruct E as [L U]. apply Z.leb_le in L, U.
    assert (H : In c bolds). { apply in_map_iff. exists (c - 120782). split; [lia|]. assert (X : 0 <= c - 120782 <= 9) by lia. revert X. generalize (c - 120782). intros x X.
      assert (x = 0 \/ x = 1 \/ x = 2 \/ x = 3 \/ x = 4 \/ x = 5 \/ x = 6 \/ x = 7 \/ x = 8 \/ x = 9) as Y by lia. cbn. intuition congruence. }
    cbv [bolds map] in H. repeat (destruct H as [<-|H]; [reflexivity|]). destruct H.
  - replace (dict_update _ _) with (map (fun k => ([120782 + k], [48 + k])) [0; 1; 2; 3; 4; 5; 6; 7; 8; 9]) by reflexivity.
    assert (X : forall k, In k [0; 1; 2; 3; 4; 5; 6; 7; 8; 9] -> (120782 + k =? c) = false).
    { intros k I. apply Z.eqb_neq. intros <-. apply andb_false_iff in E. rewrite !Z.leb_gt in E. cbn in I. lia. }
    revert X. generalize [0; 1; 2; 3; 4; 5; 6; 7; 8; 9]. intros l X. induction l as [|k l IH]; [reflexivity|]. cbn [map first_match starts]. rewrite (X k (or_introl eq_refl)). cbn [andb].
    apply IH. intros k' I. apply X. right. exact I.
Qed.
Lemma unbold_map t : unbold t = Ok (map thin t).
Proof.
  unfold unbold, rsubs_dict, subs_dict. set (d := dict_update _ _). replace (_ && _) with true by reflexivity. f_equal.
  induction t as [|c t IH]; [reflexivity|]. cbn [subs_scan map]. rewrite (first_bold d c t eq_refl). destruct (_ && _) eqn:E.
  - cbn [length pred app]. rewrite IH. reflexivity.
  - unfold thin at 1. rewrite E, IH. reflexivity.
Qed.
Lemma thin_bold t u : in_bold t u -> (forall c, In c bolds -> ~ In c t) -> map thin u = t.
Proof.
  induction 1 as [|c t u H IH|d t u D H IH]; intros N; [reflexivity| |]; cbn [map].
  - rewrite IH by (intros x X Y; apply (N x X); right; exact Y). f_equal. unfold thin. destruct (_ && _) eqn:E; [|reflexivity]. exfalso. apply (N c); [|left; reflexivity].
    apply andb_prop in E. destruct E as [L U]. apply Z.leb_le in L, U. apply in_map_iff. exists (c - 120782). split; [lia|].
    assert (X : 0 <= c - 120782 <= 9) by lia. revert X. generalize (c - 120782). intros x X.
    assert (x = 0 \/ x = 1 \/ x = 2 \/ x = 3 \/ x = 4 \/ x = 5 \/ x = 6 \/ x = 7 \/ x = 8 \/ x = 9) as Y by lia. cbn. intuition congruence.
  - rewrite IH by (intros x X Y; apply (N x X); right; exact Y). f_equal. unfold one_digit in D. unfold thin.
    rewrite (proj2 (Z.leb_le _ _)), (proj2 (Z.leb_le _ _)) by lia. cbn [andb]. lia.
Qed.
Definition no_bold (r : re) : bool := forallb (fun c => negb (chars r c)) bolds.
Lemma not_bold r t g : no_bold r = true -> search r t = Some g -> forall c, In c bolds -> ~ In c t.
Proof. intros N H c C I. apply search_some in H. pose proof (par_chars _ _ _ H c I) as X. unfold no_bold in N. rewrite forallb_forall in N. specialize (N c C). rewrite X in N. discriminate. Qed.
Lemma classify_thin t : classify t <> TExpr -> forall c, In c bolds -> ~ In c t.
Proof.
  unfold classify. intros H.
  repeat match type of H with context [search ?r t] => destruct (search r t) as [g|] eqn:E; [exact (not_bold r t g eq_refl E)|clear E] end.
  congruence.
Qed.
Lemma in_bold_refl t : in_bold t t.
Proof. induction t; constructor; auto. Qed.
Theorem read_bold e t u : shows e t -> in_bold t u -> exists t', unbold u = Ok t' /\ classify t' = TInv e.
Proof.
  intros S B. exists t. pose proof (classify_shows e t S) as C. split; [|exact C]. rewrite unbold_map. f_equal. apply (thin_bold t u B).
  apply classify_thin. rewrite C. discriminate.
Qed.
Section Eval.
Context {K : Fld}.
Open Scope res_scope.
Theorem compute_shows (s : ps K) A f e t u : shows e t -> in_bold t u -> compute_text (S f) s A u = rmap AVal (compute s e).
Proof. intros S B. destruct (read_bold e t u S B) as (t' & E & C). cbn [compute_text]. rewrite E. cbn [rbind]. rewrite C. reflexivity. Qed.
End Eval.
