(* Proofs about Phase.v *)
From Coq Require Import List ZArith Bool Lia Ring Field Permutation.
From Verif Require Import Base Fld Particle ParticleSpec ParticleThm Index IndexThm Phase PhaseSpec.
Import ListNotations.

(* ---- rmapM and permutations ---- *)
Lemma rmapM_perm {A B} (f : A -> result B) l l' : Permutation l l' ->
  forall r, rmapM f l = Ok r -> exists r', rmapM f l' = Ok r' /\ Permutation r r'.
Proof.
  induction 1 as [|x l l' P IH|x y l|l l' l'' P IH P' IH']; intros r H.
  - exists r. split; [exact H|]. inversion H; constructor.
  - cbn in *. destruct (f x); [|discriminate]. destruct (rmapM f l) as [ys|]; [|discriminate].
    inversion H; subst. destruct (IH ys eq_refl) as (r' & -> & Pr). eauto.
  - cbn in *. destruct (f y); [|discriminate]. destruct (f x); [|discriminate].
    destruct (rmapM f l); [|discriminate]. inversion H; subst. eexists; split; [reflexivity|]. constructor.
  - destruct (IH r H) as (r1 & H1 & P1). destruct (IH' r1 H1) as (r2 & H2 & P2). eauto using Permutation_trans.
Qed.
Lemma rmapM_ok_all {A B} (f : A -> result B) l : (forall x, In x l -> exists y, f x = Ok y) ->
  exists r, rmapM f l = Ok r.
Proof.
  induction l as [|x l IH]; cbn; intros H; [eauto|].
  destruct (H x (or_introl eq_refl)) as [y ->]. destruct IH as [r ->]; [auto|]. eauto.
Qed.

Section Lists.
Context {X : Type}.
Implicit Types s : list X.

Lemma getitem_shift pre s : rmapM (getitem (pre ++ s)) (map Z.of_nat (seq (S (length pre)) (length s))) = Ok s.
Proof.
  revert pre; induction s as [|x s IH]; intros pre; cbn [length seq map rmapM]; [reflexivity|].
  assert (G : getitem (pre ++ x :: s) (Z.of_nat (S (length pre))) = Ok x).
  { apply (index_in pre x s _ x). unfold zlen. lia. }
  rewrite G. specialize (IH (pre ++ [x])). rewrite <- app_assoc in IH. cbn [app] in IH.
  rewrite app_length, Nat.add_1_r in IH. rewrite IH. reflexivity.
Qed.
Lemma getitem_all s : rmapM (getitem s) (upto (length s)) = Ok s.
Proof. apply (getitem_shift []). Qed.

Lemma others_ok s A B : exists os, others s A B = Ok os.
Proof.
  apply rmapM_ok_all. intros k Hk. apply filter_In in Hk as [Hk _]. apply upto_In in Hk.
  destruct (getitem_ok s k) as (x & E & _); [unfold zlen; lia|]. eauto.
Qed.
Lemma others_perm s A B pA pB os : A <> B -> getitem s A = Ok pA -> getitem s B = Ok pB ->
  others s A B = Ok os -> Permutation s (pA :: pB :: os).
Proof.
  intros N HA HB HO.
  assert (P : Permutation (upto (length s)) (A :: B :: filter (fun k => negb (Z.eqb k A || Z.eqb k B)) (upto (length s)))).
  { apply getitem_inv in HA as [HA _]. apply getitem_inv in HB as [HB _]. unfold zlen in *.
    apply NoDup_Permutation; [apply upto_NoDup| |].
    - constructor; [|constructor; [|apply NoDup_filter, upto_NoDup]].
      + intros [E|E]; [auto|]. apply filter_In in E as [_ E]. rewrite Z.eqb_refl in E. discriminate.
      + intros E. apply filter_In in E as [_ E]. rewrite Z.eqb_refl, orb_true_r in E. discriminate.
    - intros k. split.
      + intros Hk. destruct (Z.eqb_spec A k); [left; auto|]. destruct (Z.eqb_spec B k); [right; left; auto|].
        right; right. apply filter_In. split; [exact Hk|]. lia.
      + intros [<-|[<-|E]]; [apply upto_In; lia|apply upto_In; lia|]. apply filter_In in E; tauto. }
  destruct (rmapM_perm (getitem s) _ _ P s (getitem_all s)) as (r' & H & Pr).
  cbn [rmapM] in H. rewrite HA, HB in H. unfold others in HO. rewrite HO in H. inversion H; subst. exact Pr.
Qed.
Lemma setitem_laws s A p x : getitem s A = Ok x ->
  exists s', setitem s A p = Ok s' /\ getitem s' A = Ok p /\ length s' = length s /\
    (forall k, k <> A -> getitem s' k = getitem s k) /\ (forall B, others s' A B = others s A B) /\
    (forall B, others s' B A = others s B A).
Proof.
  intros H. pose proof (getitem_inv _ _ _ H) as [R _]. destruct (split_at s A R) as (l1 & y & l2 & -> & L).
  destruct (index_in l1 y l2 A p L) as (_ & S & _ & _). exists (l1 ++ p :: l2).
  assert (G : forall k, k <> A -> getitem (l1 ++ p :: l2) k = getitem (l1 ++ y :: l2) k).
  { intros k Hk. destruct (Z_le_dec 1 k) as [K1|K1]; [destruct (Z_le_dec k (zlen (l1 ++ y :: l2))) as [K2|K2]|].
    - destruct (getitem_ok (l1 ++ y :: l2) k) as (a & E1 & N1); [lia|].
      destruct (getitem_ok (l1 ++ p :: l2) k) as (b & E2 & N2); [unfold zlen in *; rewrite app_length in *; cbn [length] in *; lia|].
      rewrite E1, E2. f_equal. unfold zlen in L.
      destruct (Z_lt_le_dec (k - 1) (Z.of_nat (length l1))).
      + rewrite nth_error_app1 in N1, N2 by lia. congruence.
      + rewrite nth_error_app2 in N1, N2 by lia.
        replace (Z.to_nat (k - 1) - length l1)%nat with (Datatypes.S (Z.to_nat (k - 1) - length l1 - 1))%nat in N1, N2 by lia.
        cbn in N1, N2. congruence.
    - rewrite (proj1 (index_out (l1 ++ y :: l2) k y (fun H => K2 (proj2 H)))). destruct (index_out (l1 ++ p :: l2) k p) as [G _]; [|exact G].
      unfold zlen in *; rewrite app_length in *; cbn [length] in *; lia.
    - rewrite (proj1 (index_out (l1 ++ y :: l2) k y (fun H => K1 (proj1 H)))). destruct (index_out (l1 ++ p :: l2) k p) as [G _]; [lia|exact G]. }
  assert (Len : length (l1 ++ p :: l2) = length (l1 ++ y :: l2)) by (rewrite !app_length; reflexivity).
  split; [exact S|]. split; [apply (index_in l1 p l2 A p L)|]. split; [exact Len|]. split; [exact G|].
  split; intros B; unfold others; rewrite Len; apply rmapM_ext; intros k Hk; apply filter_In in Hk as [_ Hk];
    apply G; intros ->; rewrite Z.eqb_refl, ?orb_true_r in Hk; discriminate.
Qed.
Lemma getitem_length s k : (exists x, getitem s k = Ok x) <-> (1 <= k <= Z.of_nat (length s))%Z.
Proof.
  split.
  - intros [x H]. apply getitem_inv in H as [H _]. exact H.
  - intros H. destruct (getitem_ok s k) as (x & E & _); [exact H|]. eauto.
Qed.
End Lists.

Section Thm.
Context {K : Fld}.
Open Scope fld_scope.
Add Field Kf2 : (fth K).
Implicit Types (s : ps K) (p q : particle K).

Ltac mext := apply m2_ext; unfold_vec; cbn [m00 m01 m10 m11 e0 e1].

Lemma msum_perm (l l' : list (m2 K)) : Permutation l l' -> msum l = msum l'.
Proof.
  unfold msum. induction 1; cbn; [reflexivity|congruence| |congruence].
  rewrite !madd_assoc, (madd_comm y x). reflexivity.
Qed.
Lemma total_perm s s' : Permutation s s' -> total_mom s = total_mom s'.
Proof. intros P. apply msum_perm, Permutation_map, P. Qed.


Lemma on_eq i (m : PM unit) s p : getitem s i = Ok p ->
  exists s', on i m s = (s', snd (m p)) /\ setitem s i (fst (m p)) = Ok s'.
Proof.
  intros H. unfold on. rewrite H. destruct (m p) as [p' r]; cbn.
  destruct (setitem_laws s i p' p H) as (s' & -> & _). eauto.
Qed.



Lemma schouten_fix (lA lB : v2 K) (Kt : m2 K) : vdot lA (raise_r lB) <> 0 ->
  madd (outer (raise_r lA) (V2 (e0 (vm lB Kt) / vdot lA (raise_r lB)) (e1 (vm lB Kt) / vdot lA (raise_r lB))))
   (madd (outer (raise_r lB) (V2 (e0 (vopp (vm lA Kt)) / vdot lA (raise_r lB)) (e1 (vopp (vm lA Kt)) / vdot lA (raise_r lB)))) Kt) = mzero.
Proof.
  unfold raise_r. intros H. unfold_vec. apply m2_ext; cbn; field; exact H.
Qed.
Lemma schouten_fix2 (rA rB : v2 K) (Kt : m2 K) : vdot (raise_r rA) rB <> 0 ->
  madd (outer (V2 (e0 (vopp (mv Kt rB)) / vdot (raise_r rA) rB) (e1 (vopp (mv Kt rB)) / vdot (raise_r rA) rB)) (raise_r rA))
   (madd (outer (V2 (e0 (mv Kt rA) / vdot (raise_r rA) rB) (e1 (mv Kt rA) / vdot (raise_r rA) rB)) (raise_r rB)) Kt) = mzero.
Proof.
  unfold raise_r. intros H. unfold_vec. apply m2_ext; cbn; field; exact H.
Qed.

Lemma vdivE_ok (v : v2 K) d : d <> 0 -> vdivE v d = Ok (V2 (e0 v / d) (e1 v / d)).
Proof. intros H. unfold vdivE. rewrite (proj2 (feqb_neq d 0) H). reflexivity. Qed.
Lemma vdivE_err (v : v2 K) : vdivE v 0 = Err ZeroDivisionError.
Proof. unfold vdivE. rewrite feqb_refl. reflexivity. Qed.

Lemma c_S2_eq s A B pA pB lA lB : getitem s A = Ok pA -> getitem s B = Ok pB ->
  l_d pA = Some lA -> l_u pB = Some lB -> c_S2 s A B = Ok (vdot lA lB).
Proof. intros H1 H2 H3 H4. unfold c_S2. rewrite H1, H2. cbn. rewrite H3, H4. reflexivity. Qed.
Lemma c_A2_eq s A B pA pB rA rB : getitem s A = Ok pA -> getitem s B = Ok pB ->
  r_u pA = Some rA -> r_d pB = Some rB -> c_A2 s A B = Ok (vdot rA rB).
Proof. intros H1 H2 H3 H4. unfold c_A2. rewrite H1, H2. cbn. rewrite H3, H4. reflexivity. Qed.

Lemma fix_complex_ok s A B axis pA pB rA lA rB lB d :
  A <> B -> getitem s A = Ok pA -> getitem s B = Ok pB ->
  consistent pA -> consistent pB ->
  r_d pA = Some rA -> l_d pA = Some lA -> r_d pB = Some rB -> l_d pB = Some lB ->
  pivot axis pA pB = Some d -> d <> 0 ->
  exists s' pA' pB', fix_mom_cons_complex A B axis s = (s', Ok tt) /\ total_mom s' = mzero /\
    untouched s s' A B /\ getitem s' A = Ok pA' /\ getitem s' B = Ok pB' /\
    massless_ok pA' /\ massless_ok pB' /\ lsq pA' = 0 /\ lsq pB' = 0 /\
    spin pA' = spin pA /\ spin pB' = spin pB /\
    (if Z.eqb axis 1 then l_d pA' = l_d pA /\ l_d pB' = l_d pB /\ l_u pA' = l_u pA /\ l_u pB' = l_u pB
     else r_d pA' = r_d pA /\ r_d pB' = r_d pB /\ r_u pA' = r_u pA /\ r_u pB' = r_u pB).
Proof.
  intros N GA GB CA CB HrA HlA HrB HlB Hp Hd.
  assert (HrAu : r_u pA = Some (raise_r rA)) by (rewrite (cons_r _ CA), HrA; reflexivity).
  assert (HlAu : l_u pA = Some (raise_r lA)) by (rewrite (cons_l _ CA), HlA; reflexivity).
  assert (HrBu : r_u pB = Some (raise_r rB)) by (rewrite (cons_r _ CB), HrB; reflexivity).
  assert (HlBu : l_u pB = Some (raise_r lB)) by (rewrite (cons_l _ CB), HlB; reflexivity).
  destruct (others_ok s A B) as [os HO]. set (Kt := msum (map (fun p => r2 p) os)).
  unfold fix_mom_cons_complex, pivot in *.
  destruct (Z.eqb axis 1).
  - rewrite HlA, HlBu in Hp. assert (Ed : d = vdot lA (raise_r lB)) by congruence. clear Hp.
    set (v1 := V2 (e0 (vm lB Kt) / d) (e1 (vm lB Kt) / d)).
    set (v2' := V2 (e0 (vopp (vm lA Kt)) / d) (e1 (vopp (vm lA Kt)) / d)).
    destruct (assign_spinor_spec pA rA lA v1 CA HrA HlA) as (_ & (qA & EA & HA1 & HA2 & HA3 & HA4 & HA5 & HA6 & HA7) & _).
    destruct (assign_spinor_spec pB rB lB v2' CB HrB HlB) as (_ & (qB & EB & HB1 & HB2 & HB3 & HB4 & HB5 & HB6 & HB7) & _).
    destruct (setitem_laws s A qA pA GA) as (s1 & S1 & G1 & L1 & O1 & OO1 & _).
    assert (GB1 : getitem s1 B = Ok pB) by (rewrite O1; auto).
    destruct (setitem_laws s1 B qB pB GB1) as (s2 & S2 & G2 & L2 & O2 & _ & OO2).
    exists s2, qA, qB.
    assert (GA2 : getitem s2 A = Ok qA) by (rewrite O2; auto).
    split.
    { unfold bind at 1. cbn [get]. unfold bind at 1. unfold lift at 1. rewrite HO. fold Kt.
      unfold bind at 1, at_ at 1. rewrite GB. unfold bind at 1, needo at 1. rewrite HlB. cbn [ret].
      unfold bind at 1. cbn [get]. unfold bind at 1, lift at 1. rewrite (c_S2_eq s A B pA pB lA (raise_r lB)); auto.
      unfold bind at 1, lift at 1. rewrite <- Ed, vdivE_ok by exact Hd. fold v1.
      unfold bind at 1. unfold on at 1. rewrite GA, EA, S1.
      unfold bind at 1, at_ at 1. rewrite G1. unfold bind at 1, needo at 1. rewrite HA2, HlA. cbn [ret].
      unfold bind at 1. cbn [get]. unfold bind at 1, lift at 1.
      rewrite (c_S2_eq s1 A B qA pB lA (raise_r lB)); auto; [|congruence].
      unfold bind at 1, lift at 1. rewrite <- Ed, vdivE_ok by exact Hd. fold v2'.
      unfold on. rewrite GB1, EB, S2. reflexivity. }
    split.
    { assert (HO2 : others s2 A B = Ok os) by (rewrite OO2, OO1; exact HO).
      rewrite (total_perm _ _ (others_perm s2 A B qA qB os N GA2 G2 HO2)).
      unfold total_mom; cbn [map msum fold_right]. fold (msum (map (fun p => r2 p) os)). fold Kt.
      destruct HA6 as (r & l & Er & El & _ & E2 & Eru & Elu). destruct HB6 as (r' & l' & Er' & El' & _ & E2' & Eru' & Elu').
      rewrite E2, E2'. rewrite Eru in HA1. rewrite Eru' in HB1.
      assert (raise_r r = v1) by congruence. assert (raise_r r' = v2') by congruence.
      assert (l = lA) by congruence. assert (l' = lB) by congruence. subst l l'.
      rewrite H, H0. unfold v1, v2'. rewrite Ed. apply schouten_fix. rewrite <- Ed. exact Hd. }
    split.
    { split; [congruence|]. intros k k1 k2. rewrite O2, O1 by auto. reflexivity. }
    split; [exact GA2|]. split; [exact G2|]. split; [split; assumption|]. split; [split; assumption|].
    do 4 (split; [assumption|]). auto.
  - rewrite HrAu, HrB in Hp. assert (Ed : d = vdot (raise_r rA) rB) by congruence. clear Hp.
    set (v1 := V2 (e0 (vopp (mv Kt rB)) / d) (e1 (vopp (mv Kt rB)) / d)).
    set (v2' := V2 (e0 (mv Kt rA) / d) (e1 (mv Kt rA) / d)).
    destruct (assign_spinor_spec pA rA lA v1 CA HrA HlA) as (_ & _ & _ & (qA & EA & HA1 & HA2 & HA3 & HA4 & HA5 & HA6 & HA7)).
    destruct (assign_spinor_spec pB rB lB v2' CB HrB HlB) as (_ & _ & _ & (qB & EB & HB1 & HB2 & HB3 & HB4 & HB5 & HB6 & HB7)).
    destruct (setitem_laws s A qA pA GA) as (s1 & S1 & G1 & L1 & O1 & OO1 & _).
    assert (GB1 : getitem s1 B = Ok pB) by (rewrite O1; auto).
    destruct (setitem_laws s1 B qB pB GB1) as (s2 & S2 & G2 & L2 & O2 & _ & OO2).
    exists s2, qA, qB.
    assert (GA2 : getitem s2 A = Ok qA) by (rewrite O2; auto).
    split.
    { unfold bind at 1. cbn [get]. unfold bind at 1. unfold lift at 1. rewrite HO. fold Kt.
      unfold bind at 1, at_ at 1. rewrite GB. unfold bind at 1, needo at 1. rewrite HrB. cbn [ret].
      unfold bind at 1. cbn [get]. unfold bind at 1, lift at 1. rewrite (c_A2_eq s A B pA pB (raise_r rA) rB); auto.
      unfold bind at 1, lift at 1. rewrite <- Ed, vdivE_ok by exact Hd. fold v1.
      unfold bind at 1. unfold on at 1. rewrite GA, EA, S1.
      unfold bind at 1, at_ at 1. rewrite G1. unfold bind at 1, needo at 1. rewrite HA2, HrA. cbn [ret].
      unfold bind at 1. cbn [get]. unfold bind at 1, lift at 1.
      rewrite (c_A2_eq s1 A B qA pB (raise_r rA) rB); auto; [|congruence].
      unfold bind at 1, lift at 1. rewrite <- Ed, vdivE_ok by exact Hd. fold v2'.
      unfold on. rewrite GB1, EB, S2. reflexivity. }
    split.
    { assert (HO2 : others s2 A B = Ok os) by (rewrite OO2, OO1; exact HO).
      rewrite (total_perm _ _ (others_perm s2 A B qA qB os N GA2 G2 HO2)).
      unfold total_mom; cbn [map msum fold_right]. fold (msum (map (fun p => r2 p) os)). fold Kt.
      destruct HA6 as (r & l & Er & El & _ & E2 & Eru & Elu). destruct HB6 as (r' & l' & Er' & El' & _ & E2' & Eru' & Elu').
      rewrite E2, E2'. rewrite Elu in HA1. rewrite Elu' in HB1.
      assert (raise_r l = v1) by congruence. assert (raise_r l' = v2') by congruence.
      assert (r = rA) by congruence. assert (r' = rB) by congruence. subst r r'.
      rewrite H, H0. unfold v1, v2'. rewrite Ed. apply schouten_fix2. rewrite <- Ed. exact Hd. }
    split.
    { split; [congruence|]. intros k k1 k2. rewrite O2, O1 by auto. reflexivity. }
    split; [exact GA2|]. split; [exact G2|]. split; [split; assumption|]. split; [split; assumption|].
    do 4 (split; [assumption|]). auto.
Qed.

Lemma fix_complex_zero s A B axis pA pB :
  getitem s A = Ok pA -> getitem s B = Ok pB -> consistent pB ->
  pivot axis pA pB = Some 0 ->
  fix_mom_cons_complex A B axis s = (s, Err ZeroDivisionError).
Proof.
  intros GA GB CB Hp. destruct (others_ok s A B) as [os HO].
  unfold fix_mom_cons_complex, pivot in *.
  unfold bind at 1. cbn [get]. unfold bind at 1. unfold lift at 1. rewrite HO.
  destruct (Z.eqb axis 1).
  - destruct (l_d pA) as [lA|] eqn:HlA; [|discriminate]. destruct (l_u pB) as [lB|] eqn:HlB; [|discriminate].
    assert (Ed : vdot lA lB = 0) by congruence.
    pose proof (cons_l _ CB) as Hl. rewrite HlB in Hl. destruct (l_d pB) as [lBd|] eqn:HlBd; [|discriminate].
    unfold bind at 1, at_ at 1. rewrite GB. unfold bind at 1, needo at 1. rewrite HlBd. cbn [ret].
    unfold bind at 1. cbn [get]. unfold bind at 1, lift at 1. rewrite (c_S2_eq s A B pA pB lA lB); auto.
    unfold bind at 1, lift at 1. rewrite Ed, vdivE_err. reflexivity.
  - destruct (r_u pA) as [rA|] eqn:HrA; [|discriminate]. destruct (r_d pB) as [rB|] eqn:HrB; [|discriminate].
    assert (Ed : vdot rA rB = 0) by congruence.
    unfold bind at 1, at_ at 1. rewrite GB. unfold bind at 1, needo at 1. rewrite HrB. cbn [ret].
    unfold bind at 1. cbn [get]. unfold bind at 1, lift at 1. rewrite (c_A2_eq s A B pA pB rA rB); auto.
    unfold bind at 1, lift at 1. rewrite Ed, vdivE_err. reflexivity.
Qed.

Lemma fix_complex_same s A axis pA : getitem s A = Ok pA -> consistent pA ->
  r_d pA <> None -> l_d pA <> None -> fix_mom_cons_complex A A axis s = (s, Err ZeroDivisionError).
Proof.
  intros G C Hr Hl. apply (fix_complex_zero s A A axis pA pA G G C).
  unfold pivot. pose proof (cons_r _ C) as E1. pose proof (cons_l _ C) as E2.
  destruct (r_d pA) as [r|]; [|congruence]. destruct (l_d pA) as [l|]; [|congruence]. cbn in E1, E2.
  destruct (Z.eqb axis 1); [rewrite E2|rewrite E1]; f_equal; unfold raise_r; unfold_vec; ring.
Qed.

(* ---- real momenta ---- *)
Lemma assign_four_mom_result cv v p i : fimag = Some i -> consistent p ->
  exists q res, assign_four_mom cv v p = (q, res) /\ consistent q /\ fm q = Some v /\ r2 q = slash_up i v /\
    spin q = spin p /\ (cv = Symmetric -> res = Ok tt) /\ (res = Ok tt \/ res = Err ZeroDivisionError).
Proof.
  intros Hi C. assert (N : fimag <> @None K) by congruence. pose proof (step_fm cv v p C N) as Cq.
  rewrite (assign_four_mom_i cv v p i Hi) in *.
  rewrite (spinors_from_fm_r2 cv _ v i Hi) in * by reflexivity.
  match goal with |- context [spinors_from_r2 cv ?x] => set (y := x) in * end.
  pose proof (spinors_from_r2_result cv y) as R.
  assert (O : only_spinors y (fst (spinors_from_r2 cv y))).
  { apply spinors_from_r2_only; unfold y; cbn; [apply (cons_r _ C)|apply (cons_l _ C)]. }
  destruct (spinors_from_r2 cv y) as [q res]. cbn in *. exists q, res.
  unfold only_spinors in O. destruct O as (O1 & O2 & O3 & O4 & O5 & _).
  split; [reflexivity|]. split; [exact Cq|]. 
  split; [rewrite O3; reflexivity|]. split; [rewrite O1; reflexivity|]. split; [rewrite O5; reflexivity|].
  split; [intros ->; exact R|]. destruct cv; [left; exact R|]. destruct (feqb _ _); auto.
Qed.

Lemma slash_sum i (vs : list (v4 K)) : msum (map (slash_up i) vs) = slash_up i (v4sum vs).
Proof.
  induction vs as [|v vs IH]; cbn [map msum fold_right v4sum].
  - unfold slash_up, v4zero. unfold_vec. apply m2_ext; cbn; ring.
  - unfold msum in IH. rewrite IH. fold (v4sum vs). unfold slash_up, v4add. unfold_vec. apply m2_ext; cbn; ring.
Qed.

Lemma consistent_fms i os : fimag = Some i -> Forall (fun p => consistent p) os ->
  exists vs, rmapM (fun p => need_r (fm p)) os = Ok vs /\ map (fun p => r2 p) os = map (slash_up i) vs.
Proof.
  intros Hi. induction 1 as [|p os C F IH]; cbn; [exists []; auto|].
  pose proof (cons_fm _ C) as E. destruct (fm p) as [v|]; [|destruct E; congruence]. cbn [need_r].
  destruct IH as (vs & -> & Ev). destruct E as (_ & j & Hj & Er & _).
  exists (v :: vs). split; [reflexivity|]. cbn. rewrite Ev, Er. congruence.
Qed.


Lemma subfield_sum (R : K -> Prop) (vs : list (v4 K)) : subfield R -> Forall (v4_in R) vs -> v4_in R (v4sum vs).
Proof.
  intros S. induction 1 as [|v vs (H0 & H1 & H2 & H3) F (J0 & J1 & J2 & J3)].
  - repeat split; apply (sf_0 _ S).
  - repeat split; cbn; apply (sf_add _ S); assumption.
Qed.
Lemma sf_opp (R : K -> Prop) x : subfield R -> R x -> R (- x).
Proof. intros S H. replace (- x) with (0 - x) by ring. apply (sf_sub _ S); [apply (sf_0 _ S)|exact H]. Qed.

Lemma rmapM_In {A B} (f : A -> result B) l r y : rmapM f l = Ok r -> In y r -> exists x, In x l /\ f x = Ok y.
Proof.
  revert r; induction l as [|x l IH]; cbn; intros r H Hy.
  - inversion H; subst; contradiction.
  - destruct (f x) eqn:E; [|discriminate]. destruct (rmapM f l) as [ys|]; [|discriminate]. inversion H; subst.
    destruct Hy as [<-|Hy]; [eauto|]. destruct (IH ys eq_refl Hy) as (z & ? & ?). eauto.
Qed.

Lemma others_In s A B os p : others s A B = Ok os -> In p os ->
  exists k, k <> A /\ k <> B /\ getitem s k = Ok p.
Proof.
  intros H I. destruct (rmapM_In _ _ _ _ H I) as (k & Hk & E). apply filter_In in Hk as [_ Hk].
  exists k. repeat split; [lia|lia|exact E].
Qed.

(* the light-like momentum given to A *)
Definition lightlike (axis : Z) (x : K) : v4 K :=
  V4 x (if Z.eqb axis 1 then x else 0) (if Z.eqb axis 2 then x else 0) (if Z.eqb axis 3 then x else 0).

Lemma two_nz' : (2 : K) <> 0. Proof. exact (f2_nz K). Qed.
Lemma mul_nz (x y : K) : x <> 0 -> y <> 0 -> x * y <> 0.
Proof.
  intros Hx Hy H. apply Hy. replace y with ((x * y) / x) by (field; exact Hx). rewrite H. field; exact Hx.
Qed.

Lemma fix_real_ok cv s A B axis pA pB (i : K) vs :
  fimag = Some i -> A <> B -> getitem s A = Ok pA -> getitem s B = Ok pB ->
  Forall (fun p => consistent p) s -> (3 <= length s)%nat ->
  (axis = 1 \/ axis = 2 \/ axis = 3)%Z ->
  (exists os, others s A B = Ok os /\ rmapM (fun p => need_r (fm p)) os = Ok vs) ->
  forall Kv Kax, Kv = v4sum vs -> v4get Kv axis = Some Kax ->
  (c0 Kv = Kax -> fix_mom_cons_real cv A B axis s = (s, Err ZeroDivisionError)) /\
  (c0 Kv <> Kax ->
   exists s' res, fix_mom_cons_real cv A B axis s = (s', res) /\ (cv = Symmetric -> res = Ok tt) /\
   (res = Ok tt -> exists pA' pB' vA vB,
    total_mom s' = mzero /\ untouched s s' A B /\ getitem s' A = Ok pA' /\ getitem s' B = Ok pB' /\
    consistent pA' /\ consistent pB' /\ lsq pA' = 0 /\ lsq pB' = 0 /\
    fm pA' = Some vA /\ fm pB' = Some vB /\
    (forall R, subfield R -> Forall (v4_in R) vs -> v4_in R vA /\ v4_in R vB))).
Proof.
  intros Hi N GA GB F Hlen Hax (os & HO & Hvs) Kv Kax EK Eax.
  pose proof (others_perm s A B pA pB os N GA GB HO) as P.
  assert (Los : (1 <= length os)%nat).
  { apply Permutation_length in P. cbn in P. lia. }
  assert (CA : consistent pA) by (rewrite Forall_forall in F; apply F; apply (Permutation_in pA (Permutation_sym P)); left; reflexivity).
  assert (CB : consistent pB) by (rewrite Forall_forall in F; apply F; apply (Permutation_in pB (Permutation_sym P)); right; left; reflexivity).
  assert (Fos : Forall (fun p => consistent p) os).
  { rewrite Forall_forall in *. intros p Hp. apply F, (Permutation_in p (Permutation_sym P)). right; right; exact Hp. }
  destruct (consistent_fms i os Hi Fos) as (vs' & E' & Em). assert (vs' = vs) by congruence. subst vs'.
  assert (Lvs : Nat.eqb (length vs) 0 = false).
  { apply rmapM_length in Hvs. apply Nat.eqb_neq. lia. }
  assert (Start : fix_mom_cons_real cv A B axis s =
    (x <- lift (divE (- mdot Kv (metric Kv)) (2 * (c0 Kv - Kax))) ;;
     on A (assign_four_mom cv (lightlike axis x)) ;;
     qA <- at_ A ;; vA <- needo (fm qA) ;; on B (assign_four_mom cv (v4sub (v4opp vA) Kv)))%mon s).
  { unfold fix_mom_cons_real. unfold bind at 1. cbn [get]. unfold bind at 1, lift at 1. rewrite HO.
    unfold bind at 1, lift at 1. rewrite Hvs, Lvs. rewrite <- EK. unfold bind at 1, lift at 1. rewrite Eax.
    unfold bind at 1, lift at 1. unfold bind at 5, lift at 1. destruct (divE _ _) as [x|e]; [|reflexivity].
    f_equal. unfold lightlike. destruct Hax as [-> | [-> | ->]]; reflexivity. }
  split.
  - intros HZ. rewrite Start. unfold bind at 1, lift at 1. unfold divE.
    replace (2 * (c0 Kv - Kax)) with (0 : K) by (rewrite HZ; ring). rewrite feqb_refl. reflexivity.
  - intros HZ. set (d := 2 * (c0 Kv - Kax)) in *.
    assert (Hd : d <> 0).
    { apply mul_nz; [apply two_nz'|]. intros E. apply HZ. replace (c0 Kv) with ((c0 Kv - Kax) + Kax) by ring. rewrite E. ring. }
    set (x := - mdot Kv (metric Kv) / d).
    destruct (assign_four_mom_result cv (lightlike axis x) pA i Hi CA) as (qA & rA & EA & CqA & FA & RA & SA & KA & KA').
    destruct (setitem_laws s A qA pA GA) as (s1 & S1 & G1 & L1 & O1 & OO1 & _).
    assert (GB1 : getitem s1 B = Ok pB) by (rewrite O1; auto).
    set (wB := v4sub (v4opp (lightlike axis x)) Kv).
    destruct (assign_four_mom_result cv wB pB i Hi CB) as (qB & rB & EB & CqB & FB & RB & SB & KB & KB').
    destruct (setitem_laws s1 B qB pB GB1) as (s2 & S2 & G2 & L2 & O2 & _ & OO2).
    assert (GA2 : getitem s2 A = Ok qA) by (rewrite O2; auto).
    assert (Run : fix_mom_cons_real cv A B axis s = match rA with Ok _ => (s2, rB) | Err e => (s1, Err e) end).
    { rewrite Start. unfold bind at 1, lift at 1, divE. rewrite (proj2 (feqb_neq d 0) Hd). fold x.
      unfold bind at 1. unfold on at 1. rewrite GA, EA, S1. destruct rA as [u|e]; [|reflexivity].
      unfold bind at 1, at_ at 1. rewrite G1. unfold bind at 1, needo at 1. rewrite FA. cbn [ret].
      unfold on. rewrite GB1. fold wB. rewrite EB, S2. reflexivity. }
    rewrite Run. destruct KA' as [-> | ->]; [|exists s1; eexists; split; [reflexivity|]; split; [intros E; specialize (KA E)|intros E]; discriminate].
    exists s2, rB. split; [reflexivity|]. split; [exact KB|]. intros ->.
    exists qA, qB, (lightlike axis x), wB.
    split.
    { assert (HO2 : others s2 A B = Ok os) by (rewrite OO2, OO1; exact HO).
      rewrite (total_perm _ _ (others_perm s2 A B qA qB os N GA2 G2 HO2)).
      unfold total_mom; cbn [map msum fold_right]. fold (msum (map (fun p => r2 p) os)). rewrite Em, slash_sum, <- EK, RA, RB.
      unfold wB, v4sub, v4opp, slash_up. unfold_vec. apply m2_ext; cbn; ring. }
    split; [split; [congruence|intros k k1 k2; rewrite O2, O1 by auto; reflexivity]|].
    split; [exact GA2|]. split; [exact G2|]. split; [exact CqA|]. split; [exact CqB|].
    assert (Ex : x * d = - mdot Kv (metric Kv)) by (unfold x; field; exact Hd).
    split.
    { rewrite (lsq_det _ (cons_r2b _ CqA)), RA, (mdet_slash i) by exact Hi.
      unfold lightlike. destruct Hax as [-> | [-> | ->]]; cbn; ring. }
    split.
    { rewrite (lsq_det _ (cons_r2b _ CqB)), RB, (mdet_slash i) by exact Hi.
      unfold wB. unfold d, mdot, metric in Ex. unfold v4sub, v4opp, lightlike.
      destruct Hax as [-> | [-> | ->]]; cbn in Eax |- *; assert (Ek : Kax = _) by (injection Eax as E; symmetry; exact E);
        rewrite Ek in Ex; cbn [c0 c1 c2 c3] in Ex;
        (match type of Ex with ?l = ?r => match goal with |- ?g = 0 => replace g with (l - r) by ring end end); rewrite Ex; ring. }
    split; [exact FA|]. split; [exact FB|].
    intros R SR FR. destruct (subfield_sum R vs SR FR) as (K0 & K1 & K2 & K3). rewrite <- EK in *.
    assert (RK : R Kax) by (destruct Hax as [-> | [-> | ->]]; cbn in Eax; injection Eax as <-; assumption).
    assert (Rx : R x).
    { unfold x, d. apply (sf_div _ SR); [|repeat first [apply (sf_mul _ SR)|apply (sf_add _ SR)|apply (sf_sub _ SR)|apply (sf_1 _ SR)|assumption]|exact Hd].
      unfold mdot, metric; cbn.
      repeat first [assumption|apply (sf_opp _ _ SR)|apply (sf_mul _ SR)|apply (sf_add _ SR)]. }
    assert (R (c0 (lightlike axis x)) /\ R (c1 (lightlike axis x)) /\ R (c2 (lightlike axis x)) /\ R (c3 (lightlike axis x))) as (J0 & J1 & J2 & J3).
    { unfold lightlike; cbn. repeat split; [assumption|..]; destruct (Z.eqb _ _); try assumption; apply (sf_0 _ SR). }
    split; [repeat split; assumption|].
    unfold wB, v4sub, v4opp. repeat split; cbn [c0 c1 c2 c3]; (apply (sf_sub _ SR); [apply (sf_opp _ _ SR); assumption|assumption]).
Qed.

(* ---- fresh points ---- *)
Lemma new_spinors_good (r l : v2 K) : let p := new_spinors r l in
  consistent p /\ reproduces p /\ r_d p = Some r /\ l_d p = Some l /\ lsq p = 0.
Proof.
  cbn zeta. assert (C : consistent (new_spinors r l)) by (apply constructed_consistent, con_sp).
  split; [exact C|].
  assert (R : reproduces (new_spinors r l)).
  { unfold new_spinors. rewrite new_spinors_eq. exists r, l. cbn. auto 10. }
  split; [exact R|]. rewrite (lsq_det _ (cons_r2b _ C)). unfold new_spinors. rewrite new_spinors_eq. cbn.
  repeat split. unfold raise_r; unfold_vec; ring.
Qed.
Lemma init_spinors_good (r l : v2 K) p : consistent p -> let q := fst (init_spinors r l p) in
  snd (init_spinors r l p) = Ok tt /\ consistent q /\ reproduces q /\ r_d q = Some r /\ l_d q = Some l /\ lsq q = 0.
Proof.
  intros C. cbn zeta.
  assert (E : init_spinors r l p = assign_l_sp_d l (set_ru (Some (raise_r r)) (set_rd (Some r) p))).
  { unfold init_spinors. cbv beta iota delta [bind modify r_sp_d_to_r_sp_u get need ret]. cbn [r_d set_rd]. rewrite LC_mv. reflexivity. }
  rewrite E, (assign_l_sp_d_eq l (set_ru (Some (raise_r r)) (set_rd (Some r) p)) r) by reflexivity. cbn [fst snd].
  split; [reflexivity|].
  match goal with |- consistent ?q /\ _ => assert (Cq : consistent q) end.
  { rewrite (outer_adj r l). apply consistent_mk; reflexivity. }
  split; [exact Cq|]. split; [exists r, l; cbn; auto 10|].
  rewrite (lsq_det _ (cons_r2b _ Cq)). cbn. repeat split. unfold raise_r; unfold_vec; ring.
Qed.


Lemma Forall_getitem {X} (P : X -> Prop) (s : list X) :
  Forall P s <-> (forall k x, getitem s k = Ok x -> P x).
Proof.
  rewrite Forall_forall. split.
  - intros H k x G. apply H. apply getitem_inv in G as [_ G]. apply nth_error_In in G. exact G.
  - intros H x Hx. apply In_nth_error in Hx as [j Hj].
    assert (L : (j < length s)%nat) by (apply nth_error_Some; congruence).
    destruct (getitem_ok s (Z.of_nat j + 1)) as (y & G & E); [unfold zlen; lia|].
    replace (Z.to_nat (Z.of_nat j + 1 - 1)) with j in E by lia. assert (y = x) by congruence. subst y. eapply H; eauto.
Qed.

Lemma reproduces_spinors p : reproduces p -> exists r l, r_d p = Some r /\ l_d p = Some l.
Proof. intros (r & l & H1 & H2 & _). eauto. Qed.

Lemma fix_fresh cv s sample axis : sample_ok (length s) sample -> Forall fresh s ->
  let x := fix_mom_cons cv sample 0 0 false axis s in
  (snd x = Ok tt -> length (fst x) = length s /\ physical (fst x)) /\
  (snd x = Ok tt \/ (fst x = s /\ (snd x = Err ZeroDivisionError \/ (length s < 2)%nat /\ snd x = Err ValueError))).
Proof.
  intros HS F. cbn zeta. unfold fix_mom_cons. cbn [Z.eqb andb].
  destruct sample as [[A B]|]; cbn in HS.
  2:{ cbn. split; [discriminate|]. right; auto. }
  destruct HS as [[HA HB] N].
  assert (HA0 : Z.eqb A 0 = false) by lia. assert (HB0 : Z.eqb B 0 = false) by lia. rewrite HA0, HB0. cbn [negb andb].
  destruct (proj2 (getitem_length s A) HA) as [pA GA]. destruct (proj2 (getitem_length s B) HB) as [pB GB].
  pose proof (proj1 (Forall_getitem _ _) F) as FG.
  destruct (FG _ _ GA) as (CA & RA & _). destruct (FG _ _ GB) as (CB & RB & _).
  destruct (reproduces_spinors _ RA) as (rA & lA & HrA & HlA). destruct (reproduces_spinors _ RB) as (rB & lB & HrB & HlB).
  assert (exists d, pivot axis pA pB = Some d) as [d Hd].
  { unfold pivot. rewrite HlA, HrB, (cons_l _ CB), (cons_r _ CA), HlB, HrA. cbn. destruct (Z.eqb axis 1); eauto. }
  destruct (feqb d 0) eqn:Ed.
  - apply (feqb_ok K) in Ed. subst d. rewrite (fix_complex_zero s A B axis pA pB GA GB CB Hd). cbn.
    split; [discriminate|]. right; auto.
  - apply feqb_neq in Ed.
    destruct (fix_complex_ok s A B axis pA pB rA lA rB lB d N GA GB CA CB HrA HlA HrB HlB Hd Ed)
      as (s' & pA' & pB' & -> & T & [L U] & GA' & GB' & (C1 & R1) & (C2 & R2) & Z1 & Z2 & _).
    cbn. split; [|left; reflexivity]. intros _. split; [exact L|]. split; [exact T|].
    apply Forall_getitem. intros k x Gk. destruct (Z.eq_dec k A) as [->|NA]; [|destruct (Z.eq_dec k B) as [->|NB]].
    + assert (x = pA') by congruence. subst x. split; auto.
    + assert (x = pB') by congruence. subst x. split; auto.
    + rewrite U in Gk by auto. apply (FG k x Gk).
Qed.

Lemma new_particles_ok (draws : list (v2 K * v2 K)) sample fixmc : sample_ok (length draws) sample ->
  let x := new_particles draws sample fixmc in
  (snd x = Ok tt -> length (fst x) = length draws /\ Forall fresh (fst x) /\ (fixmc = true -> total_mom (fst x) = mzero)) /\
  (snd x = Ok tt \/ snd x = Err ZeroDivisionError \/ ((length draws < 2)%nat /\ snd x = Err ValueError)).
Proof.
  intros HS. cbn zeta. unfold new_particles.
  set (s := map (fun d : v2 K * v2 K => new_spinors (fst d) (snd d)) draws).
  assert (F : Forall fresh s).
  { unfold s. rewrite Forall_forall. intros p Hp. apply in_map_iff in Hp as ([r l] & <- & _). cbn.
    destruct (new_spinors_good r l) as (? & ? & _ & _ & ?). split; auto. }
  assert (L : length s = length draws) by (unfold s; apply map_length).
  destruct (fixmc && negb (mom_cons_check s))%bool eqn:E.
  - rewrite <- L in HS. destruct (fix_fresh Symmetric s sample 1%Z HS F) as [H1 H2].
    split; [intros H; destruct (H1 H) as (? & ? & ?); repeat split; auto; congruence|].
    rewrite L in H2. destruct H2 as [H2 | (_ & [H2 | H2])]; auto.
  - cbn. split; [|left; reflexivity]. intros _. repeat split; auto. intros ->. cbn in E.
    apply negb_false_iff in E. apply meqb_ok in E. exact E.
Qed.

Lemma randomise_each_ok (draws : list (v2 K * v2 K)) s : length draws = length s -> Forall (fun p => consistent p) s ->
  length (randomise_each draws s) = length s /\ Forall fresh (randomise_each draws s).
Proof.
  revert draws; induction s as [|p s IH]; intros [|d draws] L F; try discriminate; cbn; [auto|].
  inversion F as [|? ? C F']; subst. destruct (IH draws) as [L' FF]; [cbn in L; lia|exact F'|].
  split; [congruence|]. constructor; [|exact FF].
  destruct (init_spinors_good (fst d) (snd d) p C) as (_ & ? & ? & _ & _ & ?). split; auto.
Qed.
Lemma randomise_all_ok cv (draws : list (v2 K * v2 K)) sample s : length draws = length s -> Forall (fun p => consistent p) s ->
  sample_ok (length s) sample ->
  let x := randomise_all cv draws sample s in
  snd x = Ok tt -> length (fst x) = length s /\ physical (fst x).
Proof.
  intros L F HS. cbn zeta. unfold randomise_all. destruct (randomise_each_ok draws s L F) as [L' F'].
  rewrite <- L' in HS |- *. apply (fix_fresh cv _ sample 1%Z HS F').
Qed.

End Thm.

Lemma base_one {A} (l : list A) (i : Z) (v : A) :
  ((1 <= i <= Z.of_nat (length l))%Z ->
     exists l1 x l2, l = l1 ++ x :: l2 /\ Z.of_nat (length l1) = (i - 1)%Z /\
       getitem l i = Ok x /\ setitem l i v = Ok (l1 ++ v :: l2) /\
       delitem l i = Ok (l1 ++ l2) /\ insert l i v = Ok (l1 ++ v :: x :: l2)) /\
  (~ (1 <= i <= Z.of_nat (length l))%Z ->
     getitem l i = Err IndexError /\ setitem l i v = Err IndexError /\
     delitem l i = Err IndexError /\ insert l i v = Err IndexError).
Proof.
  split; intros H.
  - destruct (split_at l i H) as (l1 & x & l2 & -> & L). exists l1, x, l2.
    split; [reflexivity|]. split; [exact L|]. apply (index_in l1 x l2 i v L).
  - apply index_out, H.
Qed.

Lemma p_eqb_true {K : Fld} (p q : particle K) : p_eqb p q = true <-> r2 p = r2 q.
Proof. apply meqb_ok. Qed.
Lemma ps_eq_spec {K : Fld} (s s' : ps K) : length s = length s' ->
  (exists b, seq_eq p_eqb s s' = Ok b) /\
  (seq_eq p_eqb s s' = Ok true <-> Forall2 (fun p q => r2 p = r2 q) s s') /\
  seq_eq p_eqb s s = Ok true /\
  seq_eq p_eqb s s' = seq_eq p_eqb s' s.
Proof.
  intros L. destruct (seq_eq_same_length p_eqb s s' L) as (_ & E & B).
  destruct (seq_eq_same_length p_eqb s' s (eq_sym L)) as (_ & E' & B').
  assert (FI : forall a b : ps K, Forall2 (fun x y => p_eqb x y = true) a b <-> Forall2 (fun p q => r2 p = r2 q) a b).
  { intros a b. split; induction 1; constructor; auto; apply p_eqb_true; auto. }
  assert (FS : forall a b : ps K, Forall2 (fun p q => r2 p = r2 q) a b -> Forall2 (fun p q => r2 p = r2 q) b a).
  { induction 1; constructor; auto. }
  split; [exact B|]. split; [rewrite E; apply FI|]. split.
  - apply (seq_eq_same_length p_eqb s s eq_refl). apply FI. clear. induction s; constructor; auto.
  - destruct B as [b Hb]. destruct B' as [b' Hb']. rewrite Hb, Hb'. f_equal.
    rewrite FI in E, E'. destruct b, b'; try reflexivity; exfalso.
    + pose proof (proj1 E Hb) as H. apply FS in H. apply E' in H. congruence.
    + pose proof (proj1 E' Hb') as H. apply FS in H. apply E in H. congruence.
Qed.

Lemma fix_complex_spec {K : Fld} cv sample (s : ps K) A B axis (pA pB : particle K) (d : K) :
  A <> B -> getitem s A = Ok pA -> getitem s B = Ok pB -> reachable pA -> reachable pB ->
  r_d pA <> None -> l_d pA <> None -> r_d pB <> None -> l_d pB <> None -> pivot axis pA pB = Some d ->
  let x := fix_mom_cons cv sample A B false axis s in
  (d = f0 -> x = (s, Err ZeroDivisionError)) /\
  (d <> f0 -> exists s' pA' pB', x = (s', Ok tt) /\ total_mom s' = mzero /\ untouched s s' A B /\
    getitem s' A = Ok pA' /\ getitem s' B = Ok pB' /\
    massless_ok pA' /\ massless_ok pB' /\ lsq pA' = f0 /\ lsq pB' = f0 /\
    spin pA' = spin pA /\ spin pB' = spin pB /\
    (if Z.eqb axis 1 then l_d pA' = l_d pA /\ l_d pB' = l_d pB /\ l_u pA' = l_u pA /\ l_u pB' = l_u pB
     else r_d pA' = r_d pA /\ r_d pB' = r_d pB /\ r_u pA' = r_u pA /\ r_u pB' = r_u pB)).
Proof.
  intros N GA GB RA RB HrA HlA HrB HlB Hd. cbn zeta.
  assert (E : fix_mom_cons cv sample A B false axis s = fix_mom_cons_complex A B axis s).
  { unfold fix_mom_cons. apply getitem_inv in GA as [IA _]. apply getitem_inv in GB as [IB _].
    replace (Z.eqb A 0) with false by lia. replace (Z.eqb B 0) with false by lia. reflexivity. }
  rewrite E. clear E. split; intros H.
  - apply (fix_complex_zero s A B axis pA pB); auto using reachable_consistent. congruence.
  - destruct (r_d pA) as [rA|] eqn:E1; [|congruence]. destruct (l_d pA) as [lA|] eqn:E2; [|congruence].
    destruct (r_d pB) as [rB|] eqn:E3; [|congruence]. destruct (l_d pB) as [lB|] eqn:E4; [|congruence].
    rewrite <- E1, <- E2, <- E3, <- E4.
    apply (fix_complex_ok s A B axis pA pB rA lA rB lB d); auto using reachable_consistent.
Qed.

Lemma complementary_all so n l : set_like so ->
  (l = [] -> complementary so n l = Err IndexError) /\
  (l <> [] -> exists c, complementary so n l = Ok c /\ Sorted.StronglySorted Z.lt c /\
     (forall x, In x c <-> ((1 <= x <= Z.of_nat n)%Z /\ ~ In x l)) /\
     (Sorted.StronglySorted Z.lt l -> (forall x, In x l -> (1 <= x <= Z.of_nat n)%Z) -> c <> [] -> complementary so n c = Ok l)).
Proof.
  intros S. destruct (complementary_spec so n l S) as [H1 H2]. split; [exact H1|]. intros Hl.
  pose proof (H2 Hl) as E. eexists; split; [exact E|].
  destruct (complementary_props so n l _ S E) as [Sc I]. split; [exact Sc|]. split; [exact I|].
  intros Sl R Hc. apply (complementary_twice so n l _ S Sl R E Hc).
Qed.

Lemma rmapM_app {A B} (f : A -> result B) l l' r r' : rmapM f l = Ok r -> rmapM f l' = Ok r' ->
  rmapM f (l ++ l') = Ok (r ++ r').
Proof.
  revert r; induction l as [|x l IH]; cbn; intros r H H'.
  - inversion H; exact H'.
  - destruct (f x); [|discriminate]. destruct (rmapM f l) as [ys|]; [|discriminate]. inversion H; subst.
    rewrite (IH ys eq_refl H'). reflexivity.
Qed.
Lemma msum_app {K : Fld} (l l' : list (m2 K)) : msum (l ++ l') = madd (msum l) (msum l').
Proof.
  unfold msum. induction l as [|x l IH]; cbn; [symmetry; apply madd_0_l|]. rewrite IH. apply madd_assoc.
Qed.
Lemma complementary_momentum {K : Fld} so (s : ps K) l c pl pc :
  set_like so -> NoDup l -> complementary so (length s) l = Ok c ->
  rmapM (getitem s) l = Ok pl -> rmapM (getitem s) c = Ok pc ->
  madd (msum (map (fun p => r2 p) pl)) (msum (map (fun p => r2 p) pc)) = total_mom s.
Proof.
  intros S N H Hl Hc.
  assert (R : forall x, In x l -> (1 <= x <= Z.of_nat (length s))%Z).
  { intros x Hx. apply getitem_length. clear -Hl Hx. revert pl Hl; induction l as [|y l IH]; intros pl Hl; [contradiction|].
    cbn in Hl. destruct (getitem s y) eqn:E; [|discriminate]. destruct (rmapM (getitem s) l) as [ys|] eqn:E2; [|discriminate].
    destruct Hx as [<-|Hx]; [eauto|]. eapply IH; eauto. }
  pose proof (complementary_perm so (length s) l c S N R H) as P.
  destruct (rmapM_perm (getitem s) _ _ P _ (rmapM_app _ _ _ _ _ Hl Hc)) as (r' & E & P').
  rewrite getitem_all in E. inversion E; subst r'. rewrite <- msum_app, <- map_app. apply msum_perm, Permutation_map, P'.
Qed.
