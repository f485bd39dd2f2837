(* Chains taken apart and put together, and the subscripts of points by strings. *)
From Coq Require Import Ascii String.
From Coq Require Import List ZArith Bool Lia.
From Verif Require Import Base Fld Particle ParticleSpec ParticleThm Index IndexThm Phase PhaseThm Compute ComputeSpec ComputeThm Symm Str MassesThm GenSpec GenThm Parse ParseSpec ParseChars Regex RegexThm Text TextSpec TextThm TextThm2 TextThm3 TextThm4.
Import Compute.
Import ListNotations.
Open Scope Z_scope.

Lemma sum_entry_text m : m <> [] -> entry_text (sum_entry m) = removelast (concat (map (fun k => dec k ++ [43]) m)).
Proof.
  destruct m as [|k m]; [congruence|]. intros _. unfold sum_entry. cbn [hd tl]. rewrite entry_text_cons. revert k. induction m as [|j m IH]; intros k.
  - cbn [map concat]. rewrite !app_nil_r. rewrite removelast_last. reflexivity.
  - cbn [map concat fst snd]. rewrite <- (app_assoc (sign_text true)). rewrite IH. cbn [map concat]. change (sign_text true) with [43].
    rewrite (removelast_app (dec k ++ [43])); [rewrite <- !app_assoc; reflexivity|]. destruct (dec j); discriminate.
Qed.
Lemma sum_entry_ok m : m <> [] -> Forall (fun k => 0 <= k) m -> entry_ok (sum_entry m).
Proof. destruct m as [|k m]; [congruence|]. intros _ F. inversion F; subst. split; [assumption|]. cbn [sum_entry tl snd]. apply Forall_map. eapply Forall_impl; [|eassumption]. auto. Qed.
Lemma removelast_bars ms : parts_ok ms ->
  shows_entries (map sum_entry ms) (removelast (concat (map (fun m => [c_lp] ++ removelast (concat (map (fun k => dec k ++ [c_plus]) m)) ++ [c_rp] ++ [c_bar]) ms))).
Proof.
  intros [N F]. induction F as [|m ms [M P] F IH]; [congruence|]. cbn [map concat].
  assert (R : shows_entry (sum_entry m) ([c_lp] ++ removelast (concat (map (fun k => dec k ++ [c_plus]) m)) ++ [c_rp])).
  { change [c_plus] with [43]. rewrite <- (sum_entry_text m M). apply round. apply sum_entry_ok; auto. }
  destruct ms as [|m' ms].
  - cbn [map concat]. rewrite app_nil_r. rewrite (app_assoc _ [c_rp] [c_bar]), app_assoc, removelast_last. constructor. exact R.
  - rewrite (app_assoc _ [c_rp] [c_bar]), app_assoc. rewrite removelast_app.
    + rewrite <- app_assoc. apply (next_entry _ _ _ _ R). apply IH. discriminate.
    + cbn [map concat]. destruct (removelast _); discriminate.
Qed.
Lemma split_plus m : m <> [] -> Forall (fun k => 0 <= k) m -> split 43 (entry_text (sum_entry m)) = map dec m.
Proof.
  destruct m as [|k m]; [congruence|]. intros _ F. unfold sum_entry. cbn [hd tl]. rewrite entry_text_cons. revert k F.
  assert (P : forall k, 0 <= k -> ~ In 43 (dec k)). { intros k H I. apply (digs_in _ _ (digs_dec k H)) in I. lia. }
  induction m as [|j m IH]; intros k F; inversion F; subst; cbn [map concat fst snd].
  - rewrite app_nil_r. apply split_one. auto.
  - change (sign_text true) with [43]. rewrite <- (app_assoc [43]). cbn [app]. rewrite split_cons by auto. f_equal. apply IH. assumption.
Qed.
Lemma int_of_dec k : 0 <= k -> int_of (dec k) = Ok k.
Proof.
  intros H. unfold int_of. destruct (digs_dec k H) as [N D]. replace (forallb is_digit (dec k)) with true.
  - rewrite number_dec by exact H. destruct (dec k) eqn:E; [congruence|]. reflexivity.
  - symmetry. apply forallb_forall. intros c I. apply is_digit_iff. rewrite Forall_forall in D. auto.
Qed.
Lemma ints_of m : Forall (fun k => 0 <= k) m -> rmapM int_of (map dec m) = Ok m.
Proof. induction 1 as [|k m H F IH]; cbn [map rmapM]; [reflexivity|]. rewrite int_of_dec by exact H. cbn [rbind]. rewrite IH. reflexivity. Qed.
Lemma entry_no_bar e t : shows_entry e t -> ~ In 124 t.
Proof.
  intros [e' H|e' H]; [apply no_bar, H|]. intros I. apply in_app_or in I. destruct I as [[I|[]]|I]; [discriminate|]. apply in_app_or in I. destruct I as [I|[I|[]]]; [|discriminate]. revert I. apply no_bar, H.
Qed.
Lemma mids_back ms t : Forall (fun m => m <> [] /\ Forall (fun k => 0 <= k) m) ms -> shows_entries (map sum_entry ms) t ->
  rmapM (fun e => rmapM int_of (split c_plus (no_round e))) (split c_bar t) = Ok ms.
Proof.
  intros F. revert t. induction F as [|m ms [M P] F IH]; intros t S; cbn [map] in S; inversion S as [e t' E X|e t' es u E S' X]; subst; destruct (no_round_entry _ _ E) as [O R].
  - destruct ms; [|discriminate]. unfold c_bar. rewrite split_one by (apply (entry_no_bar _ _ E)). cbn [rmapM]. rewrite R. unfold c_plus. rewrite split_plus, ints_of by auto. reflexivity.
  - unfold c_bar in *. cbn [app]. change (lit "|" ++ u) with (124 :: u). rewrite split_cons by (apply (entry_no_bar _ _ E)). cbn [rmapM]. rewrite R. unfold c_plus in *. rewrite split_plus, ints_of by auto.
    cbn [rbind]. rewrite IH by exact S'. reflexivity.
Qed.
Theorem get_lNB_text o s ms t e c : 0 <= s -> 0 <= e -> parts_ok ms -> shows_entries (map sum_entry ms) t ->
  get_lNB (opening o ++ dec s ++ lit "|" ++ t ++ lit "|" ++ dec e ++ closing c) = Ok (s :: concat ms ++ [e], s, ms, e).
Proof.
  intros S E [N F] T. unfold get_lNB. erewrite found_NB; [|rewrite opening_eq, closing_eq; reflexivity|apply digs_dec, S|apply digs_dec, E|apply (nb_entries _ _ T)|destruct o; cbn; auto|destruct c; cbn; auto].
  cbn [group Nat.eqb]. rewrite (mids_back ms t F T). cbn [rbind]. rewrite !number_dec by assumption. reflexivity.
Qed.
Theorem lNB_shows o s ms e c : 0 <= s -> 0 <= e -> parts_ok ms -> shows (IChain o s (map sum_entry ms) e c) (lNB_to_string (opening o) s ms e (closing c)).
Proof. intros S E P. unfold lNB_to_string. apply w_chain; auto. apply removelast_bars, P. Qed.
Theorem lNB_back o s ms e c : 0 <= s -> 0 <= e -> parts_ok ms -> get_lNB (lNB_to_string (opening o) s ms e (closing c)) = Ok (s :: concat ms ++ [e], s, ms, e).
Proof. intros S E P. unfold lNB_to_string. apply get_lNB_text; auto. apply removelast_bars, P. Qed.

(* ---- subscripts ---- *)
Section Sub.
Context {K : Fld}.
Open Scope fld_scope.
Open Scope res_scope.
Notation sp := (spinor_text).
(* what the string is for compute, and the setter it selects *)
Definition side_inv (d : side) (i : Z) : inv := match d with RRow => IAu i | RCol => IAd i | LCol => ISu i | LRow => ISd i end.
Definition side_set (d : side) : v2 K -> PM unit := match d with RRow => assign_r_sp_u | RCol => assign_r_sp_d | LCol => assign_l_sp_u | LRow => assign_l_sp_d end.
Definition side_re (d : side) : re := match d with RRow => pAu | RCol => pAd | LCol => pSu | LRow => pSd end.
Lemma side_shows i d t : sp i d t -> shows (side_inv d i) t.
Proof. intros []; cbn [side_inv]; constructor; assumption. Qed.
Lemma side_found i d t : sp i d t -> 0 <= i /\ (forall d', search (side_re d') t = if match d, d' with RRow, RRow | RCol, RCol | LCol, LCol | LRow, LRow => true | _, _ => false end then Some [(1%nat, dec i)] else None).
Proof.
  intros []; (split; [assumption|]); rewrite ?opening_eq, ?closing_eq; change (lit "|") with [124]; change (lit "]") with [93]; change (lit "[") with [91]; cbn [app].
  - intros []; cbn [side_re].
    + eapply found_one; eauto using digs_dec. destruct H0 as [-> | ->]; reflexivity.
    + apply no_first. destruct H0 as [-> | ->]; reflexivity.
    + apply no_first. destruct H0 as [-> | ->]; reflexivity.
    + apply no_first. destruct H0 as [-> | ->]; reflexivity.
  - intros []; cbn [side_re].
    + apply no_first. reflexivity.
    + eapply found_one; eauto using digs_dec. destruct H0 as [-> | ->]; reflexivity.
    + eapply no_last'; [rewrite app_comm_cons; reflexivity|]. destruct H0 as [-> | ->]; reflexivity.
    + apply no_first. reflexivity.
  - intros []; cbn [side_re].
    + apply no_first. reflexivity.
    + eapply no_last'; [rewrite app_comm_cons; reflexivity|]. reflexivity.
    + eapply found_one; eauto using digs_dec.
    + apply no_first. reflexivity.
  - intros []; cbn [side_re].
    + apply no_first. reflexivity.
    + apply no_first. reflexivity.
    + apply no_first. reflexivity.
    + eapply found_one; eauto using digs_dec.
Qed.
Lemma get_side (s : ps K) i d t : sp i d t -> getitem_text s t = rmap ISpinor (compute s (side_inv d i)).
Proof.
  intros H. pose proof (classify_shows _ _ (side_shows i d t H)) as C. destruct (side_found i d t H) as [I F].
  pose proof (F RRow) as F1. pose proof (F RCol) as F2. pose proof (F LCol) as F3. pose proof (F LRow) as F4. cbn [side_re] in *.
  assert (U : unbold t = Ok t). { rewrite unbold_map. f_equal. apply thin_bold; [apply in_bold_refl|]. apply classify_thin. rewrite C. discriminate. }
  unfold getitem_text. rewrite F1, F2, F3, F4, U. cbn [rbind]. rewrite C. destruct d; reflexivity.
Qed.
Lemma set_side (s : ps K) i d t v : sp i d t -> setitem_text t v s = on i (side_set d v) s.
Proof.
  intros H. destruct (side_found i d t H) as [I F].
  pose proof (F RRow) as F1. pose proof (F RCol) as F2. pose proof (F LCol) as F3. pose proof (F LRow) as F4. cbn [side_re] in *.
  unfold setitem_text. rewrite F1, F2, F3, F4. destruct d; cbn [group Nat.eqb side_set]; rewrite number_dec by exact I; reflexivity.
Qed.
Lemma side_compute (s : ps K) i d p : getitem s i = Ok p -> compute s (side_inv d i) = rmap (side_val d) (need_r (side_get d p)).
Proof. intros H. destruct d; cbn [side_inv compute side_get side_val]; rewrite H; cbn [rbind]; reflexivity. Qed.
Lemma side_one d v (p : particle K) : consistent p -> r_d p <> None -> l_d p <> None ->
  snd (side_set d v p) = Ok tt /\ consistent (fst (side_set d v p)) /\ reproduces (fst (side_set d v p)) /\ side_get d (fst (side_set d v p)) = Some v /\
  (forall d', In d' (other_side d) -> side_get d' (fst (side_set d v p)) = side_get d' p).
Proof.
  intros C R L. destruct (r_d p) as [r|] eqn:Er; [|congruence]. destruct (l_d p) as [l|] eqn:El; [|congruence].
  pose proof (cons_r _ C) as Eru. rewrite Er in Eru. pose proof (cons_l _ C) as Elu. rewrite El in Elu. cbn [option_map] in *.
  destruct d; cbn [side_set]; [pose proof (step_ru v p C) as C'|pose proof (step_rd v p C) as C'|pose proof (step_lu v p C) as C'|pose proof (step_ld v p C) as C'];
    [rewrite (assign_r_sp_u_eq v p l El Elu) in *|rewrite (assign_r_sp_d_eq v p l El Elu) in *|rewrite (assign_l_sp_u_eq v p r Er Eru) in *|rewrite (assign_l_sp_d_eq v p r Er Eru) in *];
    cbn [fst snd] in *; (split; [reflexivity|]); (split; [exact C'|]); (split; [|split; [reflexivity|]]).
  all: try (intros d' [<-|[<-|[]]]; cbn [side_get r_u r_d l_u l_d]; congruence).
  all: unfold reproduces; cbn [r_u r_d l_u l_d r2 r2b].
  all: do 2 eexists; repeat match goal with |- _ /\ _ => split end; try reflexivity; rewrite ?raise_lower; reflexivity.
Qed.
Theorem set_then_get (s : ps K) i d t v p : sp i d t -> sound s -> getitem s i = Ok p -> r_d p <> None -> l_d p <> None ->
  exists s' p', setitem_text t v s = (s', Ok tt) /\ getitem_text s' t = Ok (ISpinor (side_val d v)) /\ sound s' /\ length s' = length s /\
    (forall k, k <> i -> getitem s' k = getitem s k) /\ getitem s' i = Ok p' /\ reproduces p' /\
    (forall d', In d' (other_side d) -> side_get d' p' = side_get d' p).
Proof.
  intros T S G R L. pose proof (sound_get s i p S G) as C. destruct (side_one d v p C R L) as (O & C' & R' & E & X).
  destruct (on_eq i (side_set d v) s p G) as (s' & Q & P). destruct (setitem_laws s i (fst (side_set d v p)) p G) as (s1 & P' & G' & N & Y & _). rewrite P in P'. injection P' as <-.
  exists s', (fst (side_set d v p)). rewrite (set_side s i d t v T), Q, O, (get_side s' i d t T), (side_compute s' i d _ G'), E.
  repeat match goal with |- _ /\ _ => split end; auto.
  pose proof (getitem_inv _ _ _ G) as [B _]. destruct (split_at s i B) as (l1 & y & l2 & -> & Z). destruct (index_in l1 y l2 i (fst (side_set d v p)) Z) as (_ & P2 & _).
  rewrite P2 in P. injection P as <-. unfold sound in *. apply Forall_app in S. destruct S as [S1 S2]. inversion S2; subst. apply Forall_app. split; [assumption|]. constructor; assumption.
Qed.
(* strings that are not spinors *)
Lemma found_side d t g : search (side_re d) t = Some g -> exists i, classify t = TInv (side_inv d i).
Proof.
  intros H. pose proof H as F. apply search_some in H. assert (P : exists o a c, t = o :: a ++ [c] /\ digs a /\ g = [(1%nat, a)] /\
    match d with RRow => In o [c_la; c_lt] /\ c = 124 | RCol => o = 124 /\ In c [c_ra; c_gt] | LCol => o = 124 /\ c = 93 | LRow => o = 91 /\ c = 124 end).
  { destruct d; apply shape_one in H; destruct H as (o & a & c & -> & O & C & D & ->); exists o, a, c;
      repeat match goal with H : existsb _ _ = true |- _ => apply existsb_exists in H; destruct H as (? & ? & ?) end;
      repeat match goal with H : Z.eqb _ _ = true |- _ => apply Z.eqb_eq in H; subst end; auto. }
  destruct P as (o & a & c & E & D & -> & P). pose proof E as E2. rewrite app_comm_cons in E2. exists (number a). unfold classify.
  destruct d; cbn [side_re side_inv] in *; rewrite F; destruct P as [P Q]; subst.
  - destruct P as [<-|[<-|[]]]; gone E E2; reflexivity.
  - destruct Q as [<-|[<-|[]]]; gone E E2; reflexivity.
  - gone E E2; reflexivity.
  - gone E E2; reflexivity.
Qed.
Lemma not_side e t : shows e t -> (forall d i, e <> side_inv d i) -> forall d, search (side_re d) t = None.
Proof.
  intros S N d. destruct (search (side_re d) t) as [g|] eqn:E; [|reflexivity]. apply found_side in E. destruct E as (i & E). rewrite (classify_shows e t S) in E. injection E as ->. destruct (N d i eq_refl).
Qed.
Theorem set_other (s : ps K) e t v : shows e t -> (forall d i, e <> side_inv d i) -> setitem_text t v s = (s, Ok tt).
Proof.
  intros S N. pose proof (not_side e t S N) as F. pose proof (F RRow) as F1. pose proof (F RCol) as F2. pose proof (F LCol) as F3. pose proof (F LRow) as F4. cbn [side_re] in *.
  unfold setitem_text. rewrite F1, F2, F3, F4. reflexivity.
Qed.
Theorem get_other (s : ps K) e t d u : shows e t -> (forall d i, e <> side_inv d i) -> filter is_digit t = d :: u -> getitem_text s t = rmap IParticle (getitem s (d - 48)).
Proof.
  intros S N G. pose proof (not_side e t S N) as F. pose proof (F RRow) as F1. pose proof (F RCol) as F2. pose proof (F LCol) as F3. pose proof (F LRow) as F4. cbn [side_re] in *.
  unfold getitem_text. rewrite F1, F2, F3, F4, G. reflexivity.
Qed.
End Sub.
