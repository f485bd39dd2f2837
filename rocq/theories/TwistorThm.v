(* Proofs about Twistor.v. *)
From Coq Require Import List ZArith Bool Lia Ring Field Permutation.
From Verif Require Import Base Fld Particle ParticleSpec ParticleThm Phase PhaseSpec PhaseThm ComputeThm ComputeThm2 Twistor.
Import ListNotations.

Lemma rmapM_nth {A B} (f : A -> result B) l : forall r, rmapM f l = Ok r ->
  forall k x, nth_error l k = Some x -> exists y, nth_error r k = Some y /\ f x = Ok y.
Proof.
  induction l as [|a l IH]; intros r H k x E; [destruct k; discriminate|]. cbn in H.
  destruct (f a) as [y|] eqn:Fa; [|discriminate]. destruct (rmapM f l) as [ys|] eqn:R; [|discriminate]. inversion H; subst.
  destruct k; cbn in E; [inversion E; subst; exists y; auto|]. cbn. eauto.
Qed.
Lemma nth_error_seq a n k : (k < n)%nat -> nth_error (seq a n) k = Some (a + k)%nat.
Proof. intros H. rewrite (nth_error_nth' _ O) by (rewrite seq_length; exact H). rewrite seq_nth by exact H. reflexivity. Qed.
Lemma next_seq n : (0 < n)%nat -> map (fun k => (k + 1) mod n)%nat (seq 0 n) = seq 1 (n - 1) ++ [O].
Proof.
  intros H. replace (seq 0 n) with (seq 0 (n - 1 + 1)) by (f_equal; lia). rewrite seq_app, map_app. cbn [map seq].
  replace (0 + (n - 1) + 1)%nat with (1 * n)%nat by lia. rewrite Nat.mod_mul by lia. f_equal.
  replace (seq 1 (n - 1)) with (map S (seq 0 (n - 1))) by apply seq_shift.
  apply map_ext_in. intros k Hk. apply in_seq in Hk. rewrite Nat.mod_small by lia. lia.
Qed.
Lemma next_perm n : Permutation (map (fun k => (k + 1) mod n)%nat (seq 0 n)) (seq 0 n).
Proof.
  destruct n as [|n]; [reflexivity|]. rewrite next_seq by lia. replace (S n - 1)%nat with n by lia.
  apply Permutation_sym. change (seq 0 (S n)) with (O :: seq 1 n). apply Permutation_cons_append.
Qed.

Section Twistor.
Context {K : Fld}.
Open Scope fld_scope.
Add Field Ktw1 : (fth K).
Implicit Types p q : particle K.
Ltac mext := apply m2_ext; unfold_vec; cbn [m00 m01 m10 m11 e0 e1].

Lemma at_ok {A} (l : list A) k x : at_ l k = Ok x <-> nth_error l k = Some x.
Proof. unfold at_. destruct (nth_error l k); split; intros H; inversion H; reflexivity. Qed.
Lemma needR_ok {A} (o : option A) x : needR o = Ok x <-> o = Some x.
Proof. unfold needR. destruct o; split; intros H; inversion H; reflexivity. Qed.

Lemma msum_sub {A} (f g : A -> m2 K) (l : list A) : msum (map (fun k => msub (f k) (g k)) l) = msub (msum (map f l)) (msum (map g l)).
Proof. induction l as [|a l IH]; cbn [map msum fold_right]; [mext; ring|]. unfold msum in *. cbn [map fold_right]. rewrite IH. mext; ring. Qed.
Lemma telescope n (X : nat -> m2 K) : msum (map (fun k => msub (X k) (X ((k + 1) mod n)%nat)) (seq 0 n)) = mzero.
Proof.
  rewrite (msum_sub X (fun k => X ((k + 1) mod n)%nat)).
  rewrite <- (map_map (fun k => (k + 1) mod n)%nat X).
  rewrite (msum_perm (map X (map _ _)) (map X (seq 0 n))) by (apply Permutation_map, next_perm). mext; ring.
Qed.

Lemma kernel_det (m : m2 K) (v : v2 K) : mv m v = V2 0 0 -> v <> V2 0 0 -> mdet m = 0.
Proof.
  intros H N. assert (H0 : m00 m * e0 v + m01 m * e1 v = 0 /\ m10 m * e0 v + m11 m * e1 v = 0).
  { unfold mv in H. inversion H. auto. } destruct H0 as [H0 H1].
  destruct v as [a b]. cbn [e0 e1] in *.
  assert (A : mdet m * a = 0).
  { replace (mdet m * a) with (m11 m * (m00 m * a + m01 m * b) - m01 m * (m10 m * a + m11 m * b)) by (unfold mdet; ring). rewrite H0, H1. ring. }
  assert (B : mdet m * b = 0).
  { replace (mdet m * b) with (m00 m * (m10 m * a + m11 m * b) - m10 m * (m00 m * a + m01 m * b)) by (unfold mdet; ring). rewrite H0, H1. ring. }
  destruct (feqb a 0) eqn:Ea.
  - apply feqb_ok in Ea. destruct (feqb b 0) eqn:Eb; [apply feqb_ok in Eb; subst; congruence|]. apply feqb_neq in Eb.
    replace (mdet m) with (mdet m * b / b) by (field; exact Eb). rewrite B. field. exact Eb.
  - apply feqb_neq in Ea. replace (mdet m) with (mdet m * a / a) by (field; exact Ea). rewrite A. field. exact Ea.
Qed.

(* the line through two twistors *)
Definition line (mu lam mu' lam' : v2 K) : m2 K :=
  let d := vdot (raise_r lam') lam in let m := msub (outer mu (raise_r lam')) (outer mu' (raise_r lam)) in
  M2 (m00 m / d) (m01 m / d) (m10 m / d) (m11 m / d).
Lemma line_right mu lam mu' lam' : vdot (raise_r lam') lam <> 0 -> mv (line mu lam mu' lam') lam' = mu'.
Proof.
  intros H. unfold line. cbv zeta. apply v2_ext; unfold_vec; unfold raise_r in *; unfold vdot in H; cbn [e0 e1] in *; field; exact H.
Qed.
Lemma line_left mu lam mu' lam' : vdot (raise_r lam') lam <> 0 -> mv (line mu lam mu' lam') lam = mu.
Proof.
  intros H. unfold line. cbv zeta. apply v2_ext; unfold_vec; unfold raise_r in *; unfold vdot in H; cbn [e0 e1] in *; field; exact H.
Qed.

Lemma twist_ok z p q : consistent p -> randomise_twist z p = Ok q ->
  consistent q /\ r_d q = Some (fst z) /\ r_u q = Some (raise_r (fst z)).
Proof.
  intros C H. unfold randomise_twist in H. destruct (l_d p) as [l|] eqn:El.
  - pose proof (cons_l p C) as Cl. rewrite El in Cl. cbn in Cl.
    pose proof (step_ok (ORd (fst z)) p C) as SC. cbn [do_op] in SC.
    rewrite (assign_r_sp_d_eq (fst z) p l El Cl) in H, SC. cbn [fst snd] in SC. inversion H; subst. split; [apply SC; reflexivity|]. split; reflexivity.
  - pose proof (cons_l p C) as Cl. rewrite El in Cl. cbn in Cl. rewrite (assign_r_sp_d_none (fst z) p Cl) in H. discriminate.
Qed.
Lemma twist_ret z p : consistent p -> l_d p <> None -> exists q, randomise_twist z p = Ok q.
Proof.
  intros C N. unfold randomise_twist. destruct (l_d p) as [l|] eqn:El; [|congruence]. pose proof (cons_l p C) as Cl. rewrite El in Cl. cbn in Cl.
  rewrite (assign_r_sp_d_eq (fst z) p l El Cl). eauto.
Qed.

Lemma to_mom_ok cv x x' p q : consistent p -> twist_x_to_mom cv x x' p = Ok q -> consistent q /\ r2 q = adj (msub x x').
Proof.
  intros C H. unfold twist_x_to_mom in H. apply rbind_ok in H as (v & Ev & H). apply rbind_ok in H as (i & Ei & H).
  apply needR_ok in Ei. cbv zeta in H. pose proof (fm_of_r2b i (msub x x') Ei) as F. cbv zeta in F. rewrite F in H. clear F.
  pose proof (step_ok (OFm cv (vec_up i (adj (msub x x')))) p C) as SC. cbn [do_op] in SC.
  destruct (assign_mom_cases cv p) as (_ & _ & Q & _). destruct (Q (vec_up i (adj (msub x x'))) i Ei) as (s & E & R & _).
  rewrite E in H, SC. pose proof (spinors_from_r2_r2 cv s) as R2.
  destruct (spinors_from_r2 cv s) as [q' [u|e]]; [|discriminate]. inversion H; subst. cbn [fst snd] in *. split; [destruct u; apply SC; reflexivity|].
  rewrite R2, R. apply slash_up_vec, Ei.
Qed.
Lemma to_mom_ret x x' p (i : K) : consistent p -> fimag = Some i -> exists q, twist_x_to_mom Symmetric x x' p = Ok q.
Proof.
  intros C Ei. unfold twist_x_to_mom. pose proof (cons_fm p C) as F. destruct (fm p) as [v|]; [|destruct F; congruence]. cbn [needR rbind]. rewrite Ei. cbn [needR rbind].
  cbv zeta. match goal with |- context [assign_four_mom Symmetric ?w p] => set (V := w) end.
  destruct (assign_mom_cases Symmetric p) as (_ & _ & Q & _). destruct (Q V i Ei) as (s & E & _). rewrite E.
  pose proof (spinors_from_r2_result Symmetric s) as R. destruct (spinors_from_r2 Symmetric s) as [q' [u|e]]; [eauto|discriminate].
Qed.

Section Run.
Context (cv : convention) (zs : list (v2 K * v2 K)) (s : ps K).
Hypothesis C : Forall consistent s.
Hypothesis L : length zs = length s.
Let n := length s.

Lemma first_loop s1 : rmapM (fun zp => randomise_twist (fst zp) (snd zp)) (combine zs s) = Ok s1 ->
  length s1 = n /\ forall k z, nth_error zs k = Some z -> exists q, nth_error s1 k = Some q /\ consistent q /\ r_d q = Some (fst z) /\ r_u q = Some (raise_r (fst z)).
Proof.
  intros H. split; [rewrite (rmapM_length _ _ _ H), combine_length, L; unfold n; lia|].
  intros k z Ez. assert (Ep : exists p, nth_error s k = Some p).
  { destruct (nth_error s k) eqn:E; [eauto|]. apply nth_error_None in E. assert (k < length zs)%nat by (apply nth_error_Some; congruence). lia. }
  destruct Ep as [p Ep].
  assert (E : nth_error (combine zs s) k = Some (z, p)).
  { clear -Ez Ep. revert s k Ez Ep. induction zs as [|a l IH]; intros [|b s] [|k] Ez Ep; cbn in *; try discriminate; [congruence|]. apply IH; assumption. }
  destruct (rmapM_nth _ _ _ H k _ E) as (q & Eq & R). cbn [fst snd] in R. exists q. split; [exact Eq|].
  apply (twist_ok z p); [|exact R]. rewrite Forall_forall in C. apply C. eapply nth_error_In; eauto.
Qed.

Definition lam k := fst (nth k zs (V2 0 0, V2 0 0)).
Definition mu k := snd (nth k zs (V2 0 0, V2 0 0)).
Definition nx k := ((k + 1) mod n)%nat.
Lemma nx_lt k : (k < n)%nat -> (nx k < n)%nat.
Proof. intros H. apply Nat.mod_upper_bound. lia. Qed.
Lemma zs_nth k : (k < n)%nat -> nth_error zs k = Some (lam k, mu k).
Proof. intros H. rewrite (nth_error_nth' _ (V2 0 0, V2 0 0)) by (rewrite L; exact H). unfold lam, mu. destruct (nth k zs _); reflexivity. Qed.

Theorem twistor_returned s' : randomise_twistor cv zs s = Ok s' ->
  length s' = length s /\ total_mom s' = mzero /\ Forall (fun p => consistent p /\ lsq p = 0) s'.
Proof.
  unfold randomise_twistor. fold n. intros H. apply rbind_ok in H as (s1 & H1 & H). apply rbind_ok in H as (xs & H2 & H).
  destruct (first_loop s1 H1) as [L1 F1].
  assert (LX : length xs = n) by (rewrite (rmapM_length _ _ _ H2), seq_length; reflexivity).
  assert (X : forall k, (k < n)%nat -> vdot (raise_r (lam (nx k))) (lam k) <> 0 /\ nth_error xs k = Some (line (mu k) (lam k) (mu (nx k)) (lam (nx k)))).
  { intros k Hk. destruct (rmapM_nth _ _ _ H2 k k) as (x & Ex & R); [rewrite nth_error_seq by exact Hk; reflexivity|].
    apply rbind_ok in R as (p & Ep & R). apply rbind_ok in R as (z & Ez & R). apply rbind_ok in R as (p' & Ep' & R). apply rbind_ok in R as (z' & Ez' & R).
    apply at_ok in Ep, Ez, Ep', Ez'. fold (nx k) in Ep', Ez'.
    destruct (F1 k z Ez) as (q & Eq & _ & Rd & Ru). rewrite Ep in Eq. inversion Eq; subst q.
    destruct (F1 (nx k) z' Ez') as (q & Eq' & _ & Rd' & Ru'). rewrite Ep' in Eq'. inversion Eq'; subst q.
    rewrite zs_nth in Ez, Ez' by (auto using nx_lt). inversion Ez; subst z. inversion Ez'; subst z'. cbn [fst snd] in *.
    unfold comp_twist_x in R. rewrite Rd, Ru, Ru' in R. cbn [needR rbind] in R. unfold mdivE in R.
    destruct (feqb _ 0) eqn:D; [discriminate|]. apply feqb_neq in D. split; [exact D|]. inversion R; subst x. exact Ex. }
  assert (S2 : forall k, (k < n)%nat -> exists q, nth_error s' k = Some q /\ consistent q /\ r2 q = adj (msub (nth k xs mzero) (nth (nx k) xs mzero))).
  { intros k Hk. destruct (rmapM_nth _ _ _ H k k) as (q & Eq & R); [rewrite nth_error_seq by exact Hk; reflexivity|]. exists q. split; [exact Eq|].
    apply rbind_ok in R as (p & Ep & R). apply rbind_ok in R as (x & Ex & R). apply rbind_ok in R as (x' & Ex' & R). apply at_ok in Ep, Ex, Ex'. fold (nx k) in Ex'.
    destruct (F1 k _ (zs_nth k Hk)) as (p1 & Ep1 & Cp & _). rewrite Ep in Ep1. inversion Ep1; subst p1.
    destruct (to_mom_ok _ _ _ _ _ Cp R) as [Cq Rq]. split; [exact Cq|]. rewrite Rq.
    rewrite (nth_error_nth xs k mzero Ex), (nth_error_nth xs (nx k) mzero Ex'). reflexivity. }
  assert (LS : length s' = n) by (rewrite (rmapM_length _ _ _ H), seq_length; reflexivity).
  split; [exact LS|]. split.
  - unfold total_mom. replace (map (fun p => r2 p) s') with (map adj (map (fun k => msub (nth k xs mzero) (nth (nx k) xs mzero)) (seq 0 n))).
    + rewrite msum_adj. unfold nx. rewrite (telescope n (fun k => nth k xs mzero)). unfold adj. mext; ring.
    + apply nth_ext with (d := mzero) (d' := mzero); [rewrite !map_length, seq_length, LS; reflexivity|].
      intros k Hk. rewrite !map_length, seq_length in Hk. destruct (S2 k Hk) as (q & Eq & _ & R).
      apply nth_error_nth. rewrite map_map.
      rewrite (map_nth_error _ k (seq 0 n) (nth_error_seq 0 n k Hk)). cbn [Nat.add]. rewrite <- R.
      f_equal. symmetry. apply nth_error_nth. rewrite (map_nth_error _ k s' Eq). reflexivity.
  - apply Forall_forall. intros q Hq. apply In_nth_error in Hq as [k Ek].
    assert (Hk : (k < n)%nat) by (rewrite <- LS; apply nth_error_Some; congruence).
    destruct (S2 k Hk) as (q' & Eq & Cq & R). rewrite Ek in Eq. inversion Eq; subst q'. split; [exact Cq|].
    rewrite (lsq_det q (cons_r2b q Cq)), R, mdet_adj.
    destruct (X k Hk) as [D1 X1]. destruct (X (nx k) (nx_lt k Hk)) as [D2 X2].
    rewrite (nth_error_nth xs k mzero X1), (nth_error_nth xs (nx k) mzero X2).
    apply (kernel_det _ (lam (nx k))).
    + pose proof (line_right (mu k) (lam k) (mu (nx k)) (lam (nx k)) D1) as A.
      pose proof (line_left (mu (nx k)) (lam (nx k)) (mu (nx (nx k))) (lam (nx (nx k))) D2) as B.
      set (x := line _ _ (mu (nx k)) _) in *. set (y := line _ _ _ (lam (nx (nx k)))) in *.
      apply v2_ext.
      * transitivity (e0 (mv x (lam (nx k))) - e0 (mv y (lam (nx k)))); [unfold_vec; ring|]. rewrite A, B. cbn; ring.
      * transitivity (e1 (mv x (lam (nx k))) - e1 (mv y (lam (nx k)))); [unfold_vec; ring|]. rewrite A, B. cbn; ring.
    + intros Z. apply D1. rewrite Z. unfold raise_r, vdot. cbn. ring.
Qed.
End Run.

(* with symmetric spinors, a square root of -1 and spinors to start from, the call returns
   exactly when no two neighbouring spinors are parallel *)
Theorem twistor_returns (zs : list (v2 K * v2 K)) (s : ps K) (i : K) :
  Forall (fun p => consistent p /\ l_d p <> None) s -> length zs = length s -> fimag = Some i ->
  (exists s', randomise_twistor Symmetric zs s = Ok s') <->
  (forall k, (k < length s)%nat -> vdot (raise_r (lam zs ((k + 1) mod length s)%nat)) (lam zs k) <> 0).
Proof.
  intros C L I.
  assert (C1 : Forall consistent s) by (eapply Forall_impl; [|exact C]; cbn; tauto).
  assert (H1 : exists s1, rmapM (fun zp => randomise_twist (fst zp) (snd zp)) (combine zs s) = Ok s1).
  { apply rmapM_ok_all. intros [z p] IN. apply in_combine_r in IN. rewrite Forall_forall in C. destruct (C p IN). apply twist_ret; assumption. }
  destruct H1 as [s1 H1]. pose proof (first_loop zs s C1 L s1 H1) as [L1 F1].
  assert (P : forall k, (k < length s)%nat -> exists q, nth_error s1 k = Some q /\ consistent q /\ r_d q = Some (lam zs k) /\ r_u q = Some (raise_r (lam zs k))).
  { intros k Hk. exact (F1 k _ (zs_nth zs s L k Hk)). }
  assert (NX : forall k, (k < length s)%nat -> ((k + 1) mod length s < length s)%nat) by (intros; apply Nat.mod_upper_bound; lia).
  assert (ST : forall k, (k < length s)%nat ->
     rbind (at_ s1 k) (fun p => rbind (at_ zs k) (fun z => rbind (at_ s1 ((k + 1) mod length s)%nat) (fun p' => rbind (at_ zs ((k + 1) mod length s)%nat) (fun z' =>
       comp_twist_x p (snd z) p' (snd z'))))) =
     mdivE (msub (outer (mu zs k) (raise_r (lam zs ((k + 1) mod length s)%nat))) (outer (mu zs ((k + 1) mod length s)%nat) (raise_r (lam zs k))))
        (vdot (raise_r (lam zs ((k + 1) mod length s)%nat)) (lam zs k))).
  { intros k Hk. destruct (P k Hk) as (q & Eq & _ & Rd & Ru). destruct (P _ (NX k Hk)) as (q' & Eq' & _ & Rd' & Ru').
    rewrite (proj2 (at_ok _ _ _) Eq), (proj2 (at_ok _ _ _) Eq'), (proj2 (at_ok _ _ _) (zs_nth zs s L k Hk)), (proj2 (at_ok _ _ _) (zs_nth zs s L _ (NX k Hk))).
    cbn [rbind snd]. unfold comp_twist_x. rewrite Rd, Ru, Ru'. reflexivity. }
  unfold randomise_twistor. rewrite H1. cbn [rbind]. split.
  - intros [s' H] k Hk. apply rbind_ok in H as (xs & H2 & _). destruct (rmapM_nth _ _ _ H2 k k) as (x & _ & R); [rewrite nth_error_seq by exact Hk; reflexivity|].
    rewrite ST in R by exact Hk. unfold mdivE in R. destruct (feqb _ 0) eqn:D; [discriminate|]. apply feqb_neq, D.
  - intros D.
    destruct (rmapM_ok_all (fun k => rbind (at_ s1 k) (fun p => rbind (at_ zs k) (fun z => rbind (at_ s1 ((k + 1) mod length s)%nat) (fun p' => rbind (at_ zs ((k + 1) mod length s)%nat) (fun z' =>
       comp_twist_x p (snd z) p' (snd z')))))) (seq 0 (length s))) as [xs H2].
    { intros k Hk. apply in_seq in Hk. rewrite ST by lia. unfold mdivE. rewrite (proj2 (feqb_neq _ _) (D k ltac:(lia))). eauto. }
    rewrite H2. cbn [rbind]. apply rmapM_ok_all. intros k Hk. apply in_seq in Hk.
    assert (LX : length xs = length s) by (rewrite (rmapM_length _ _ _ H2), seq_length; reflexivity).
    destruct (P k ltac:(lia)) as (q & Eq & Cq & _). rewrite (proj2 (at_ok _ _ _) Eq). cbn [rbind].
    assert (XN : forall j, (j < length s)%nat -> exists x, at_ xs j = Ok x).
    { intros j Hj. unfold at_. destruct (nth_error xs j) eqn:E; [eauto|]. apply nth_error_None in E. lia. }
    destruct (XN k ltac:(lia)) as [x ->]. destruct (XN _ (NX k ltac:(lia))) as [x' ->]. cbn [rbind]. apply (to_mom_ret _ _ _ i Cq I).
Qed.
(* one particle alone has parallel neighbours *)
Theorem twistor_one cv z (p : particle K) : consistent p -> l_d p <> None -> randomise_twistor cv [z] [p] = Err ZeroDivisionError.
Proof.
  intros C N. unfold randomise_twistor. cbn [length combine rmapM fst snd]. destruct (twist_ret z p C N) as [q E]. rewrite E. cbn [rbind rmapM seq].
  destruct (twist_ok z p q C E) as (_ & Rd & Ru). cbn [at_ nth_error Nat.add Nat.modulo Nat.divmod snd Nat.sub rbind]. unfold comp_twist_x. rewrite Rd, Ru. cbn [needR rbind].
  unfold mdivE. replace (vdot (raise_r (fst z)) (fst z)) with (0 : K) by (unfold raise_r, vdot; cbn; ring). rewrite feqb_refl. reflexivity.
Qed.
Lemma raise_dot (a b : v2 K) : vdot (raise_r b) a = e0 a * e1 b - e1 a * e0 b.
Proof. unfold raise_r, vdot. cbn. ring. Qed.
End Twistor.
