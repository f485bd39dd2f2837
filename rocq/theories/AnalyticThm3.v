(* Proofs for C60-C62: generators, and putting a dictionary into a point. *)
From Coq Require Import Ascii String.
From Coq Require Import List ZArith Bool Lia Setoid Field.
From Verif Require Import Base Fld Particle ParticleSpec ParticleThm Index IndexThm Phase PhaseThm Compute ComputeSpec ComputeThm ComputeThm5 Symm SymmThm Str Gen GenThm Ideal IdealThm RatPoly RatFun Analytic AnalyticSpec AnalyticThm AnalyticThm2.
Import ListNotations.
Import Compute.
Open Scope nat_scope.

Section Entries.
Context {K : Fld}.
Add Field Kan7 : (fth K).
Lemma four_zero (x : K) : (2 * 2 * x = 0 <-> x = 0)%fld.
Proof.
  split; [|intros ->; ring]. intros H. assert (E : (x = 2 * 2 * x / 2 / 2)%fld) by (field; apply two_nz). rewrite E, H. field. apply two_nz.
Qed.
End Entries.
Lemma rrel_ok {A B} (P : A -> B -> Prop) r r' a : rrel P r r' -> r = Ok a -> exists b, r' = Ok b /\ P a b.
Proof. intros X ->. destruct r' as [b|]; [exists b; auto|destruct X]. Qed.
Lemma rrel_ok' {A B} (P : A -> B -> Prop) r r' b : rrel P r r' -> r' = Ok b -> exists a, r = Ok a /\ P a b.
Proof. intros X ->. destruct r as [a|]; [exists a; auto|destruct X]. Qed.
Lemma rmapM_as_poly {K : Fld} {m} (l l' : list (tower K m)) : rmapM as_poly l = Ok l' -> l' = l.
Proof.
  revert l'. induction l as [|x l IH]; intros l' H; cbn [rmapM] in H; [injection H as <-; reflexivity|].
  unfold as_poly at 1 in H. destruct (is_number m x); cbn [rbind] in H; [discriminate H|]. destruct (rmapM as_poly l) as [l2|]; cbn [rbind] in H; [|discriminate H]. injection H as <-. f_equal. apply IH. reflexivity.
Qed.
Lemma rel_entries {L K : Fld} (R : L -> K -> Prop) v v' : vrel R v v' -> Forall2 R (entries v) (entries v').
Proof.
  destruct v, v'; cbn; intros H; try contradiction; try (destruct H as [A B]; repeat constructor; assumption).
  - repeat constructor; assumption.
  - destruct H as (A & B & C & D). repeat constructor; assumption.
Qed.
Section Gens.
Context {K0 K : Fld} (R0 : K0 -> K -> Prop) (RR0 : ring_rel K0 K R0) (Fu : functional R0).
Lemma zero_lists (L : Fld) (R : L -> K -> Prop) (RR : ring_rel L K R) (FuR : functional R) l l' : Forall2 R l l' ->
  ((forall g, In g (map (fun x => (2 * 2 * x)%fld) l) -> R g 0%fld) <-> Forall (fun x => x = 0%fld) l').
Proof.
  intros H. assert (T : R 2%fld 2%fld).
  { apply (rr_add _ _ _ RR); apply (rr_1 _ _ _ RR). }
  induction H as [|x y l l' A H IH]; [split; [constructor|intros _ g []]|]. cbn [map In]. rewrite Forall_cons_iff, <- IH.
  assert (X : R (2 * 2 * x)%fld (2 * 2 * y)%fld) by (repeat apply (rr_mul _ _ _ RR); assumption).
  split.
  - intros G. split; [|intros g I; apply G; auto]. apply four_zero. apply (FuR _ _ _ X). apply G. auto.
  - intros [-> G] g [<-|I]; [|auto]. rewrite (proj2 (four_zero (0%fld : K)) eq_refl) in X. exact X.
Qed.
Lemma zero_lists1 (L : Fld) (R : L -> K -> Prop) (FuR : functional R) l l' : Forall2 R l l' ->
  ((forall g, In g l -> R g 0%fld) <-> Forall (fun x => x = 0%fld) l').
Proof.
  intros H. induction H as [|x y l l' A H IH]; [split; [constructor|intros _ g []]|]. cbn [In]. rewrite Forall_cons_iff, <- IH. split.
  - intros G. split; [|intros g I; apply G; auto]. apply (FuR _ _ _ A). apply G. auto.
  - intros [-> G] g [<-|I]; [exact A|auto].
Qed.
Lemma is_zero_entries (v : val K) : is_zero v <-> Forall (fun x => x = 0%fld) (entries v).
Proof.
  destruct v as [x|[x y]|[x y]|[a b c e]]; cbn.
  - split; [intros ->; repeat constructor|intros X; now inversion X].
  - split; [intros X; injection X as -> ->; repeat constructor|]. intros X. inversion X as [|? ? X1 Y1]. inversion Y1 as [|? ? X2 Y2]. subst. reflexivity.
  - split; [intros X; injection X as -> ->; repeat constructor|]. intros X. inversion X as [|? ? X1 Y1]. inversion Y1 as [|? ? X2 Y2]. subst. reflexivity.
  - unfold mzero. split.
    + intros X. injection X as -> -> -> ->. repeat constructor.
    + intros X. inversion X as [|? ? X1 Y1]. inversion Y1 as [|? ? X2 Y2]. inversion Y2 as [|? ? X3 Y3]. inversion Y3 as [|? ? X4 _]. subst. reflexivity.
Qed.
Lemma gens_values (s : ps K0) covs mc gs (t : ps K) d : lips_generators s covs mc = Ok gs -> length t = length s -> Forall reproduces t -> analytical_subs_d t = Ok d ->
  ((forall g, In g gs -> subst R0 (given d) _ g 0%fld) <->
   Forall (vanishes t) covs /\ (mc = true -> total_mom t = mzero)).
Proof.
  intros E Lt Rt D. unfold lips_generators in E. destruct (make_analytical_d None s) as [S|] eqn:Es; cbn [rbind] in E; [|discriminate E].
  assert (P : Forall2 (prel (subst R0 (given d) (4 * length s))) S t).
  { apply (make_prel R0 RR0 s None S t d Es Lt Rt D). intros j x y (l & X & _) _ _. discriminate X. }
  assert (RR := subst_ring R0 RR0 (given d) (4 * length s)). assert (FF := subst_fun R0 RR0 (given d) (4 * length s) Fu).
  destruct (rmapM _ covs) as [gg|] eqn:Eg; cbn [rbind] in E; [|discriminate E]. destruct (if mc then _ else _) as [ms|] eqn:Em; cbn [rbind] in E; [|discriminate E]. injection E as <-.
  assert (A : (forall g, In g (concat gg) -> subst R0 (given d) (4 * length s) g 0%fld) <-> Forall (vanishes t) covs).
  { clear Em. revert gg Eg. induction covs as [|e covs IH]; intros gg Eg; cbn [rmapM] in Eg.
    - injection Eg as <-. split; [constructor|intros _ g []].
    - destruct (compute S e) as [v|] eqn:Ev; cbn [rbind] in Eg; [|discriminate Eg]. destruct (rmapM as_poly _) as [l|] eqn:El; cbn [rbind] in Eg; [|discriminate Eg]. apply rmapM_as_poly in El. subst l.
      match type of Eg with context [rmapM ?f covs] => destruct (rmapM f covs) as [gg'|] eqn:Eg'; cbn [rbind] in Eg; [|discriminate Eg] end. injection Eg as <-. cbn [concat].
      rewrite Forall_cons_iff, <- (IH gg' eq_refl).
      destruct (rrel_ok _ _ _ _ (rel_compute _ RR _ _ P e) Ev) as (v' & Ev' & Rv).
      assert (Z := zero_lists _ _ RR FF _ _ (rel_entries _ _ _ Rv)).
      assert (V : vanishes t e <-> Forall (fun x => x = 0%fld) (entries v')). { unfold vanishes. rewrite Ev', <- is_zero_entries. split; [intros (w & X & Y); injection X as <-; exact Y|intros Y; exists v'; auto]. }
      rewrite V, <- Z. split.
      + intros G. split; intros g I; apply G; apply in_or_app; auto.
      + intros [G1 G2] g I. apply in_app_or in I. destruct I; auto. }
  rewrite <- A. destruct mc.
  - apply rmapM_as_poly in Em. subst ms.
    assert (M : m2rel (subst R0 (given d) (4 * length s)) (total_mom S) (total_mom t)).
    { unfold total_mom. apply (rel_msum _ RR). clear - P. induction P as [|p p' l l' X P IH]; cbn [map]; constructor; [apply (prel_2 _ _ _ X)|exact IH]. }
    assert (Z := zero_lists1 _ _ FF _ _ (rel_entries (subst R0 (given d) (4 * length s)) (VMat (total_mom S)) (VMat (total_mom t)) M)).
    assert (V : Forall (fun x => x = 0%fld) (entries (VMat (total_mom t))) <-> total_mom t = mzero).
    { rewrite <- is_zero_entries. reflexivity. }
    rewrite V in Z. split.
    + intros G. split; [|intros _; apply Z]; intros g I; apply G; apply in_or_app; auto.
    + intros [G1 G2] g I. apply in_app_or in I. destruct I as [I|I]; [auto|]. apply (proj2 Z); auto.
  - injection Em as <-. rewrite app_nil_r. split; [intros G; split; [exact G|discriminate]|intros [G _]; exact G].
Qed.
End Gens.

(* ---- update_particles ---- *)
Section Update.
Context {K : Fld}.
Implicit Types (s t : ps K) (d : dict K).
Definition dleg d (k : nat) (sp : option bool) : particle K := built (V2 (given d (k * 4 + 0)) (given d (k * 4 + 1))) (V2 (given d (k * 4 + 2)) (given d (k * 4 + 3))) sp.
Lemma name0 k : name (k * 4 + 0) = var_name 97 (Z.of_nat k + 1). Proof. rewrite name_eq by lia. reflexivity. Qed.
Lemma name1 k : name (k * 4 + 1) = var_name 98 (Z.of_nat k + 1). Proof. rewrite name_eq by lia. reflexivity. Qed.
Lemma name2 k : name (k * 4 + 2) = var_name 99 (Z.of_nat k + 1). Proof. rewrite name_eq by lia. reflexivity. Qed.
Lemma name3 k : name (k * 4 + 3) = var_name 100 (Z.of_nat k + 1). Proof. rewrite name_eq by lia. reflexivity. Qed.
Lemma update_one d k (p : particle K) : (forall c, c < 4 -> dict_get (name (k * 4 + c)) d <> None) -> update_particle d (Z.of_nat k + 1) p = (dleg d k (spin p), Ok tt).
Proof.
  intros H. unfold dleg, given. assert (H0 := H 0 ltac:(lia)). assert (H1 := H 1 ltac:(lia)). assert (H2 := H 2 ltac:(lia)). assert (H3 := H 3 ltac:(lia)).
  rewrite ?name0, ?name1, ?name2, ?name3 in *.
  unfold update_particle, dict_at. cbv beta delta [bind].
  destruct (dict_get (var_name 99 (Z.of_nat k + 1)) d) as [c|]; [|contradiction]. destruct (dict_get (var_name 100 (Z.of_nat k + 1)) d) as [e|]; [|contradiction].
  destruct (dict_get (var_name 97 (Z.of_nat k + 1)) d) as [a|]; [|contradiction]. destruct (dict_get (var_name 98 (Z.of_nat k + 1)) d) as [b|]; [|contradiction].
  cbv beta iota delta [ret modify l_sp_d_to_l_sp_u get bind need]. cbn [set_ld l_d set_lu].
  rewrite (assign_r_sp_d_eq _ _ (V2 c e)); [|reflexivity|]. 
  - reflexivity.
  - cbn [l_u set_lu set_ld]. rewrite ?LC_vmT, ?LC_mv. reflexivity.
Qed.
Lemma update_from d : forall n j s, complete (4 * length s) d -> j + n = length s ->
  exists s', update_loop d (map Z.of_nat (seq (j + 1) n)) s = (s', Ok tt) /\ length s' = length s /\
    forall k p, nth_error s k = Some p -> nth_error s' k = Some (if (j <=? k) then dleg d k (spin p) else p).
Proof.
  induction n as [|n IH]; intros j s C L.
  - exists s. split; [reflexivity|]. split; [reflexivity|]. intros k p Hk. assert (k < length s) by (apply nth_error_Some; congruence). destruct (Nat.leb_spec j k); [lia|exact Hk].
  - cbn [seq map update_loop]. destruct (nth_error s j) as [p|] eqn:Ep; [|apply nth_error_None in Ep; lia].
    assert (G := get_nth s j p Ep). replace (Z.of_nat (j + 1)) with (Z.of_nat j + 1)%Z by lia. destruct (on_eq _ (update_particle d (Z.of_nat j + 1)) s p G) as (s1 & E1 & S1).
    rewrite update_one in E1, S1 by (intros c Hc; apply C; lia). cbn [fst snd] in E1, S1. unfold bind. rewrite E1.
    destruct (setitem_laws s _ (dleg d j (spin p)) p G) as (s1' & S1' & G1 & L1 & Keep & _). rewrite S1 in S1'. injection S1' as <-.
    destruct (IH (j + 1) s1) as (s2 & E2 & L2 & N2); [rewrite L1; exact C|lia|].
    replace (Datatypes.S (j + 1)) with (j + 1 + 1) by lia. exists s2. split; [exact E2|]. split; [congruence|].
    intros k q Hk. assert (Lk : k < length s) by (apply nth_error_Some; congruence).
    destruct (Nat.eq_dec k j) as [->|Nk].
    + rewrite Ep in Hk. injection Hk as <-. apply nth_get in G1. destruct G1 as [_ G1]. replace (Z.to_nat (Z.of_nat j + 1 - 1)) with j in G1 by lia. rewrite (N2 _ _ G1). destruct (Nat.leb_spec (j + 1) j); [lia|]. destruct (Nat.leb_spec j j); [reflexivity|lia].
    + assert (Gk := get_nth s k q Hk). rewrite <- Keep in Gk by lia. apply nth_get in Gk. destruct Gk as [_ Gk]. replace (Z.to_nat (Z.of_nat k + 1 - 1)) with k in Gk by lia. rewrite (N2 _ _ Gk).
      destruct (Nat.leb_spec (j + 1) k), (Nat.leb_spec j k); try lia; reflexivity.
Qed.
Lemma update_all d s : complete (4 * length s) d -> exists s', update_particles d s = (s', Ok tt) /\ length s' = length s /\ forall k p, nth_error s k = Some p -> nth_error s' k = Some (dleg d k (spin p)).
Proof.
  intros C. unfold update_particles, upto. unfold bind, get. destruct (update_from d (length s) 0 s C eq_refl) as (s' & E & L & N). exists s'. split; [exact E|]. split; [exact L|]. intros k p Hk. rewrite (N k p Hk). reflexivity.
Qed.
Lemma update_props d s s' : complete (4 * length s) d -> update_particles d s = (s', Ok tt) -> Forall reproduces s' /\ sound s' /\ length s' = length s /\ map (fun p => spin p) s' = map (fun p => spin p) s.
Proof.
  intros C E. destruct (update_all d s C) as (s2 & E2 & L & N). rewrite E in E2. injection E2 as <-.
  assert (X : forall q, In q s' -> exists k sp, q = dleg d k sp).
  { intros q I. apply In_nth_error in I. destruct I as (k & I). assert (Hk : k < length s) by (rewrite <- L; apply nth_error_Some; congruence). destruct (nth_error s k) as [p|] eqn:Ep; [|apply nth_error_None in Ep; lia]. rewrite (N k p Ep) in I. injection I as <-. eauto. }
  split; [|split; [|split; [exact L|]]].
  - apply Forall_forall. intros q I. destruct (X q I) as (k & sp & ->). apply built_reproduces.
  - apply Forall_forall. intros q I. destruct (X q I) as (k & sp & ->). apply built_consistent.
  - apply nth_error_ext. intros k. rewrite !nth_error_map. destruct (nth_error s k) as [p|] eqn:Ep; [rewrite (N k p Ep); reflexivity|]. apply nth_error_None in Ep. rewrite <- L in Ep. apply nth_error_None in Ep. rewrite Ep. reflexivity.
Qed.
Lemma update_subs d s s' : complete (4 * length s) d -> update_particles d s = (s', Ok tt) -> exists d', analytical_subs_d s' = Ok d' /\ forall j, j < 4 * length s -> dict_get (name j) d' = dict_get (name j) d.
Proof.
  intros C E. destruct (update_props d s s' C E) as (R & _ & L & _).
  destruct (subs_exists s') as (d' & D). { eapply Forall_impl; [|exact R]. intros p (r & l & A & B & _). split; congruence. }
  exists d'. split; [exact D|]. intros j J. destruct (update_all d s C) as (s2 & E2 & _ & N). rewrite E in E2. injection E2 as <-.
  assert (J' : j < 4 * length s') by (rewrite L; exact J). assert (C' := subs_complete s' d' D j J'). assert (Cj := C j J).
  assert (G : given d' j = given d j).
  { destruct (split4 _ _ J) as (k & c & Hk & Hc & ->). destruct (nth_error s k) as [p|] eqn:Ep; [|apply nth_error_None in Ep; lia]. assert (Nk := N k p Ep).
    destruct (subs_given s' d' k _ (V2 (given d (k * 4 + 0)) (given d (k * 4 + 1))) (V2 (given d (k * 4 + 2)) (given d (k * 4 + 3))) D Nk eq_refl eq_refl) as (G0 & G1 & G2 & G3). cbn [e0 e1] in *.
    destruct c as [|[|[|[|c]]]]; [exact G0|exact G1|exact G2|exact G3|lia]. }
  unfold given in G. destruct (dict_get (name j) d'); [|contradiction]. destruct (dict_get (name j) d); [|contradiction]. congruence.
Qed.
Lemma update_same d s : Forall reproduces s -> sound s -> analytical_subs_d s = Ok d -> update_particles d s = (s, Ok tt).
Proof.
  intros R S D. destruct (update_all d s (subs_complete s d D)) as (s' & E & L & N). rewrite E. f_equal. apply nth_error_ext. intros k.
  destruct (nth_error s k) as [p|] eqn:Ep; [|apply nth_error_None in Ep; rewrite <- L in Ep; apply nth_error_None in Ep; exact Ep]. rewrite (N k p Ep). f_equal.
  unfold sound in S. rewrite Forall_forall in R, S. assert (I := nth_error_In _ _ Ep). destruct (R p I) as (r & l & Er & El & Rest).
  destruct (subs_given s d k p r l D Ep Er El) as (G0 & G1 & G2 & G3). unfold dleg. rewrite G0, G1, G2, G3. destruct r as [r0 r1], l as [l0 l1]. cbn [e0 e1]. symmetry. apply built_of; auto.
Qed.
(* a missing name *)
Lemma update_missing d : forall n j s, j + n = length s -> (exists i, j <= i < length s /\ exists c, c < 4 /\ dict_get (name (i * 4 + c)) d = None) -> snd (update_loop d (map Z.of_nat (seq (j + 1) n)) s) = Err KeyError.
Proof.
  induction n as [|n IH]; intros j s L (i & Hi & c & Hc & E); [lia|]. cbn [seq map update_loop]. replace (Z.of_nat (j + 1)) with (Z.of_nat j + 1)%Z by lia.
  destruct (nth_error s j) as [p|] eqn:Ep; [|apply nth_error_None in Ep; lia]. assert (G := get_nth s j p Ep).
  destruct (on_eq _ (update_particle d (Z.of_nat j + 1)) s p G) as (s1 & E1 & S1). unfold bind. rewrite E1.
  assert (Dec : (forall c, c < 4 -> dict_get (name (j * 4 + c)) d <> None) \/ snd (update_particle d (Z.of_nat j + 1) p) = Err KeyError).
  { assert (A := name0 j). assert (B := name1 j). assert (C := name2 j). assert (D := name3 j).
    unfold update_particle, dict_at, bind. destruct (dict_get (var_name 99 (Z.of_nat j + 1)) d) as [x|] eqn:X1; [|right; reflexivity]. destruct (dict_get (var_name 100 (Z.of_nat j + 1)) d) as [y|] eqn:X2; [|right; reflexivity].
    cbv beta iota delta [ret modify l_sp_d_to_l_sp_u get bind need]. cbn [set_ld l_d set_lu].
    destruct (dict_get (var_name 97 (Z.of_nat j + 1)) d) as [z|] eqn:X3; [|right; reflexivity]. destruct (dict_get (var_name 98 (Z.of_nat j + 1)) d) as [w|] eqn:X4; [|right; reflexivity].
    left. intros c' Hc'. destruct c' as [|[|[|[|c']]]]; [rewrite A, X3|rewrite B, X4|rewrite C, X1|rewrite D, X2|lia]; discriminate. }
  destruct Dec as [Dec|Dec]; [|rewrite Dec; reflexivity].
  rewrite update_one in S1 by exact Dec. rewrite update_one by exact Dec. cbn [fst snd] in *. 
  destruct (setitem_laws s _ (dleg d j (spin p)) p G) as (s1' & S1' & _ & L1 & _). rewrite S1 in S1'. injection S1' as <-.
  assert (Nj : i <> j) by (intros ->; exact (Dec c Hc E)).
  replace (Datatypes.S (j + 1)) with (j + 1 + 1) by lia. apply IH; [lia|]. exists i. split; [lia|]. exists c. auto.
Qed.
End Update.
Section Ext.
Context {K0 K : Fld} (R0 : K0 -> K -> Prop).
Lemma F2_impl {A B} (P Q : A -> B -> Prop) l l' : (forall a b, P a b -> Q a b) -> Forall2 P l l' -> Forall2 Q l l'.
Proof. intros H. induction 1; constructor; auto. Qed.
Lemma subst_ext (v v' : nat -> K) m : (forall j, j < m -> v j = v' j) -> forall x y, subst R0 v m x y -> subst R0 v' m x y.
Proof.
  induction m as [|m IH]; intros E x y H; [exact H|]. cbn [subst] in *. destruct H as (n & d & n' & d' & A & B & C & D & G). rewrite (E m ltac:(lia)) in D, G.
  assert (I : forall x y, subst R0 v m x y -> subst R0 v' m x y) by (apply IH; intros j J; apply E; lia).
  exists n, d, n', d'. split; [eapply F2_impl; [exact I|exact A]|]. split; [eapply F2_impl; [exact I|exact B]|]. auto.
Qed.
End Ext.
Section Variety.
Context {K0 K : Fld} (R0 : K0 -> K -> Prop) (RR0 : ring_rel K0 K R0) (Fu : functional R0).
Lemma update_values (s : ps K0) covs mc gs (t t' : ps K) d : lips_generators s covs mc = Ok gs -> length t = length s -> complete (4 * length t) d -> update_particles d t = (t', Ok tt) ->
  ((forall g, In g gs -> subst R0 (given d) _ g 0%fld) <-> Forall (vanishes t') covs /\ (mc = true -> total_mom t' = mzero)).
Proof.
  intros E L C U. destruct (update_props d t t' C U) as (R & _ & L' & _). destruct (update_subs d t t' C U) as (d' & D' & G).
  assert (V : forall j, j < 4 * length s -> given d j = given d' j) by (intros j J; unfold given; rewrite G by (rewrite L; exact J); reflexivity).
  rewrite <- (gens_values R0 RR0 Fu s covs mc gs t' d' E ltac:(congruence) R D'). split; intros X g I; eapply subst_ext; try apply (X g I); intros j J; [|symmetry]; apply V, J.
Qed.
End Variety.
Section Identity.
Context {K0 K : Fld} (R0 : K0 -> K -> Prop) (RR0 : ring_rel K0 K R0) (Fu : functional R0).
Lemma vrel_fun {L : Fld} (R : L -> K -> Prop) : functional R -> functional (vrel R).
Proof.
  intros F v y y' A B. destruct v as [x|u|u|m], y as [x1|[p q]|[p q]|[a b c d]], y' as [x2|[p' q']|[p' q']|[a' b' c' d']]; cbn in A, B; try contradiction.
  - f_equal. exact (F _ _ _ A B).
  - destruct A as [A1 A2], B as [B1 B2]. cbn in *. rewrite (F _ _ _ A1 B1), (F _ _ _ A2 B2). reflexivity.
  - destruct A as [A1 A2], B as [B1 B2]. cbn in *. rewrite (F _ _ _ A1 B1), (F _ _ _ A2 B2). reflexivity.
  - destruct A as (A1 & A2 & A3 & A4), B as (B1 & B2 & B3 & B4). cbn in *. rewrite (F _ _ _ A1 B1), (F _ _ _ A2 B2), (F _ _ _ A3 B3), (F _ _ _ A4 B4). reflexivity.
Qed.
Lemma identity_values (s : ps K0) S (t : ps K) e e' : make_analytical_d None s = Ok S -> length t = length s -> Forall reproduces t -> compute S e = compute S e' -> compute t e = compute t e'.
Proof.
  intros E L R I. destruct (subs_exists t) as (d & D). { eapply Forall_impl; [|exact R]. intros p (r & l & A & B & _). split; congruence. }
  assert (P := make_prel R0 RR0 s None S t d E L R D (fun j x y H _ _ => ltac:(destruct H as (? & X & _); discriminate X))).
  assert (RR := subst_ring R0 RR0 (given d) (4 * length s)). assert (FF := subst_fun R0 RR0 (given d) (4 * length s) Fu).
  assert (A := rel_compute _ RR _ _ P e). assert (B := rel_compute _ RR _ _ P e'). rewrite <- I in B.
  destruct (compute S e) as [v|x], (compute t e) as [y|y], (compute t e') as [y'|y']; cbn in A, B; try contradiction; try congruence.
  f_equal. exact (vrel_fun _ FF v y y' A B).
Qed.
End Identity.
Lemma update_forgets {K : Fld} (d : dict K) (t u : ps K) : complete (4 * length t) d -> map (fun p => spin p) t = map (fun p => spin p) u -> fst (update_particles d t) = fst (update_particles d u).
Proof.
  intros C E. assert (L : length u = length t). { apply (f_equal (@length _)) in E. rewrite !map_length in E. congruence. }
  destruct (update_all d t C) as (t' & Et & Lt & Nt). destruct (update_all d u ltac:(rewrite L; exact C)) as (u' & Eu & Lu & Nu). rewrite Et, Eu. cbn [fst].
  apply nth_error_ext. intros k. destruct (nth_error t k) as [p|] eqn:Ep.
  - assert (X : nth_error (map (fun p => spin p) u) k = Some (spin p)) by (rewrite <- E; rewrite nth_error_map, Ep; reflexivity). rewrite nth_error_map in X. destruct (nth_error u k) as [q|] eqn:Eq; [|discriminate X]. injection X as X.
    rewrite (Nt k p Ep), (Nu k q Eq), X. reflexivity.
  - apply nth_error_None in Ep. transitivity (@None (particle K)); [|symmetry]; apply nth_error_None; lia.
Qed.
