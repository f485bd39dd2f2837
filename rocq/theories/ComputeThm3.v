(* How compute reacts to transformations of the point: C22, C23, C07, C15. *)
From Coq Require Import List ZArith Bool Lia Ring Field Permutation.
From Verif Require Import Base Fld Particle ParticleSpec ParticleThm Index IndexThm Phase PhaseSpec PhaseThm Det Arcs Compute ComputeSpec ComputeThm ComputeThm2.
Import ListNotations.

Section Thm.
Context {K : Fld}.
Open Scope fld_scope.
Add Field Kc3 : (fth K).
Implicit Types (s : ps K) (p q : particle K).

Lemma lsum_ext {A} (f g : A -> K) l : (forall x, f x = g x) -> lsum f l = lsum g l.
Proof.
  intros H. unfold lsum. generalize (0 : K). induction l as [|x l IH]; intros acc; cbn; [reflexivity|].
  rewrite H. apply IH.
Qed.
Lemma det_SS n (m : mat K) : det (S (S n)) m =
  lsum (fun col => alt col * m 0%nat col * det (S n) (minor m col)) (seq 0 (S (S n))).
Proof. reflexivity. Qed.
Lemma det_ext n : forall (m m' : mat K), (forall i j, m i j = m' i j) -> det n m = det n m'.
Proof.
  induction n as [|n IH]; intros m m' H; [reflexivity|]. destruct n as [|n]; [apply H|].
  rewrite !det_SS. apply lsum_ext. intros c. rewrite H, (IH (minor m c) (minor m' c)); [reflexivity|].
  intros i j. apply H.
Qed.

(* ---- momenta transformed linearly ---- *)
Section Lin.
(* Lf b: what happens to r2b (b = true) and r2 *)
Variables (s s' : ps K) (Lf : bool -> m2 K -> m2 K).
Hypothesis mom_L : forall b k, mom b s' k = rmap (Lf b) (mom b s k).
Hypothesis L_add : forall b m m', Lf b (madd m m') = madd (Lf b m) (Lf b m').
Hypothesis L_sub : forall b m m', Lf b (msub m m') = msub (Lf b m) (Lf b m').
Hypothesis L_0 : forall b, Lf b mzero = mzero.
Hypothesis L_det : forall m, mdet (Lf false m) = mdet m.
Hypothesis L_tr : forall m m', mtr (mmul (Lf false m) (Lf true m')) = mtr (mmul m m').
Hypothesis L_len : length s' = length s.

Lemma lin_entry_rest b l : forall acc, entry_rest b s' (Lf b acc) l = rmap (Lf b) (entry_rest b s acc l).
Proof.
  induction l as [|[sg k] l IH]; intros acc; cbn; [reflexivity|]. rewrite mom_L.
  destruct (mom b s k); cbn; [|reflexivity]. rewrite <- IH. destruct sg; [rewrite L_add|rewrite L_sub]; reflexivity.
Qed.
Lemma lin_entry b e : entry_val b s' e = rmap (Lf b) (entry_val b s e).
Proof. unfold entry_val. rewrite mom_L. destruct (mom b s (fst e)); cbn; [apply lin_entry_rest|reflexivity]. Qed.
Lemma lin_msum b ms : msum (map (Lf b) ms) = Lf b (msum ms).
Proof. unfold msum. induction ms as [|m ms IH]; cbn; [symmetry; apply L_0|]. rewrite IH, L_add. reflexivity. Qed.
Lemma lin_mom_sum b l : mom_sum b s' l = rmap (Lf b) (mom_sum b s l).
Proof.
  destruct l as [|k l]; [reflexivity|]. unfold mom_sum.
  rewrite (rmapM_ext (mom b s') (fun k => rmap (Lf b) (mom b s k))) by auto.
  rewrite (rmapM_rmap (mom b s) (Lf b)). destruct (rmapM (mom b s) (k :: l)); cbn [rmap rbind]; [|reflexivity].
  rewrite lin_msum. reflexivity.
Qed.
Lemma lin_S l : c_S s' l = c_S s l.
Proof. unfold c_S. rewrite lin_mom_sum. destruct (mom_sum false s l); cbn [rmap rbind]; [|reflexivity]. rewrite !det2_mdet, L_det. reflexivity. Qed.
Lemma nth_L b i ms : nth i (map (Lf b) ms) mzero = Lf b (nth i ms mzero).
Proof. rewrite <- (L_0 b) at 1. apply map_nth. Qed.
Lemma lin_delta cs : c_delta s' cs = c_delta s cs.
Proof.
  unfold c_delta. rewrite (rmapM_ext (mom_sum false s') (fun l => rmap (Lf false) (mom_sum false s l))) by (intros; apply lin_mom_sum).
  rewrite (rmapM_ext (mom_sum true s') (fun l => rmap (Lf true) (mom_sum true s l))) by (intros; apply lin_mom_sum).
  rewrite (rmapM_rmap (mom_sum false s) (Lf false)), (rmapM_rmap (mom_sum true s) (Lf true)).
  destruct (rmapM (mom_sum false s) cs); cbn [rmap rbind]; [|reflexivity].
  destruct (rmapM (mom_sum true s) cs); cbn [rmap rbind]; [|reflexivity].
  f_equal. f_equal. apply det_ext. intros i j. rewrite !nth_L, L_tr. reflexivity.
Qed.
Lemma lin_arcs ijk : arcs (S (length s')) (zlen s') ijk = arcs (S (length s)) (zlen s) ijk.
Proof. unfold zlen. rewrite L_len. reflexivity. Qed.
Lemma lin_det2 m : det2 (Lf true m) = mdet (Lf true m). Proof. apply det2_mdet. Qed.
Lemma lin_delta3 ijk : (forall m, mdet (Lf true m) = mdet m) -> c_delta3 s' ijk = c_delta3 s ijk.
Proof.
  intros Ld. unfold c_delta3. rewrite lin_arcs. destruct (arcs _ _ ijk) as [[[l0 l1] l2]|]; cbn [rbind]; [|reflexivity].
  rewrite !lin_mom_sum. destruct (mom_sum false s l0); cbn [rmap rbind]; [|reflexivity].
  destruct (mom_sum true s l1); cbn [rmap rbind]; [|reflexivity]. rewrite !det2_mdet, L_tr, L_det, Ld. reflexivity.
Qed.
Lemma lin_Omega ijk : c_Omega s' ijk = c_Omega s ijk.
Proof.
  unfold c_Omega. rewrite lin_arcs. destruct (arcs _ _ ijk) as [[[l0 l1] l2]|]; cbn [rbind]; [|reflexivity].
  rewrite !lin_S. destruct l0; [reflexivity|]. rewrite !lin_S. reflexivity.
Qed.
Lemma lin_Pi ijk : c_Pi s' ijk = c_Pi s ijk.
Proof.
  unfold c_Pi. rewrite lin_arcs. destruct (arcs _ _ ijk) as [[[l0 l1] l2]|]; cbn [rbind]; [|reflexivity].
  destruct l0 as [|x [|y l0]]; [reflexivity..|]. rewrite !lin_S. reflexivity.
Qed.
Lemma lin_delta5 : c_delta5 s' = c_delta5 s.
Proof. unfold c_delta5. rewrite !lin_S. reflexivity. Qed.
End Lin.

(* ---- C22, C23 ---- *)
Section Boost.
Variables (A B : m2 K) (w : Z -> K) (s s' : ps K).
Hypothesis H : boosted A B w s s'.

Definition Lf (b : bool) (m : m2 K) : m2 K := if b then mmul (mmul A m) B else mmul (mmul (adj B) m) (adj A).
Definition Rt (b : bool) : m2 K := if b then adj A else B.
Definition Lt (b : bool) : m2 K := if b then A else adj B.

Lemma AA : mmul (adj A) A = mone. Proof. rewrite mmul_adj_l, (bo_A _ _ _ _ _ H). unfold_vec. apply m2_ext; cbn; ring. Qed.
Lemma AA' : mmul A (adj A) = mone. Proof. rewrite mmul_adj_r, (bo_A _ _ _ _ _ H). unfold_vec. apply m2_ext; cbn; ring. Qed.
Lemma BB : mmul (adj B) B = mone. Proof. rewrite mmul_adj_l, (bo_B _ _ _ _ _ H). unfold_vec. apply m2_ext; cbn; ring. Qed.
Lemma BB' : mmul B (adj B) = mone. Proof. rewrite mmul_adj_r, (bo_B _ _ _ _ _ H). unfold_vec. apply m2_ext; cbn; ring. Qed.
Lemma RtLt b : mmul (Rt b) (Lt b) = mone. Proof. destruct b; [apply AA|apply BB']. Qed.
Lemma Lf_eq b m : Lf b m = mmul (mmul (Lt b) m) (Rt (negb b)). Proof. destruct b; reflexivity. Qed.
Lemma adj_Lf m : adj (Lf true m) = Lf false (adj m).
Proof. unfold Lf. rewrite !adj_mul, mmul_assoc. reflexivity. Qed.

Lemma boost_get k : (exists p p', getitem s k = Ok p /\ getitem s' k = Ok p' /\ boost_leg A B (w k) p p' /\ consistent p /\ consistent p') \/
  (getitem s k = Err IndexError /\ getitem s' k = Err IndexError).
Proof.
  destruct (getitem s k) as [p|e] eqn:G.
  - assert (exists p', getitem s' k = Ok p') as [p' G'].
    { apply getitem_length. rewrite (bo_len _ _ _ _ _ H). apply getitem_length. eauto. }
    left. exists p, p'. repeat split; auto; try apply (bo_leg _ _ _ _ _ H k p p' G G').
    all: try apply (sound_get s k p (bo_s _ _ _ _ _ H) G); apply (sound_get s' k p' (bo_s' _ _ _ _ _ H) G').
  - right. apply getitem_err in G as E. subst e. split; [reflexivity|].
    destruct (getitem s' k) as [p'|e] eqn:G'; [|apply getitem_err in G' as E; congruence].
    assert (exists p, getitem s k = Ok p) as [p Gp].
    { apply getitem_length. rewrite <- (bo_len _ _ _ _ _ H). apply getitem_length. eauto. }
    congruence.
Qed.
Lemma boost_mom b k : mom b s' k = rmap (Lf b) (mom b s k).
Proof.
  unfold mom. destruct (boost_get k) as [(p & p' & -> & -> & [_ _ E] & C & C')|[-> ->]]; [|reflexivity]. cbn.
  destruct b; [rewrite E; reflexivity|]. f_equal.
  rewrite <- (adj_adj (r2 p')), <- (cons_r2b _ C'), E. change (mmul (mmul A (r2b p)) B) with (Lf true (r2b p)).
  rewrite adj_Lf, (cons_r2b _ C), adj_adj. reflexivity.
Qed.
Lemma Lf_add b m m' : Lf b (madd m m') = madd (Lf b m) (Lf b m').
Proof. destruct b; cbn; rewrite mmul_madd_r, mmul_madd_l; reflexivity. Qed.
Lemma Lf_sub b m m' : Lf b (msub m m') = msub (Lf b m) (Lf b m').
Proof. destruct b; cbn; rewrite mmul_msub_r, mmul_msub_l; reflexivity. Qed.
Lemma Lf_0 b : Lf b mzero = mzero.
Proof. destruct b; cbn; unfold adj; unfold_vec; apply m2_ext; cbn; ring. Qed.
Lemma mdet_mul (a b : m2 K) : mdet (mmul a b) = mdet a * mdet b. Proof. unfold_vec; ring. Qed.
Lemma mdet_adj (a : m2 K) : mdet (adj a) = mdet a. Proof. unfold adj; unfold_vec; ring. Qed.
Lemma Lf_det b m : mdet (Lf b m) = mdet m.
Proof.
  destruct b; cbn; rewrite !mdet_mul, ?mdet_adj, (bo_A _ _ _ _ _ H), (bo_B _ _ _ _ _ H); ring.
Qed.
Lemma Lf_tr m m' : mtr (mmul (Lf false m) (Lf true m')) = mtr (mmul m m').
Proof.
  cbn. rewrite mtr_comm.
  replace (mmul (mmul (mmul A m') B) (mmul (mmul (adj B) m) (adj A))) with (mmul A (mmul (mmul m' (mmul B (adj B))) (mmul m (adj A))))
    by (rewrite !mmul_assoc; reflexivity).
  rewrite BB', mmul_1_r, mtr_comm, <- !mmul_assoc, AA, mmul_1_r, mtr_comm. reflexivity.
Qed.

Lemma boost_mid_rest es : forall b (Lm acc : m2 K),
  mid_rest b s' (mmul (mmul Lm acc) (Rt b)) es = rmap (fun m => mmul (mmul Lm m) (Rt (flip_by (length es) b))) (mid_rest b s acc es).
Proof.
  induction es as [|e es IH]; intros b Lm acc; cbn [mid_rest length]; [reflexivity|].
  rewrite (lin_entry s s' Lf boost_mom Lf_add Lf_sub). destruct (entry_val b s e) as [m|]; cbn [rmap rbind]; [|reflexivity].
  replace (mmul (mmul (mmul Lm acc) (Rt b)) (Lf b m)) with (mmul (mmul Lm (mmul acc m)) (Rt (negb b))).
  - rewrite IH, flip_by_S. reflexivity.
  - rewrite Lf_eq. transitivity (mmul (mmul (mmul Lm acc) (mmul (mmul (Rt b) (Lt b)) m)) (Rt (negb b))).
    + rewrite RtLt, mmul_1_l, !mmul_assoc. reflexivity.
    + rewrite !mmul_assoc. reflexivity.
Qed.
Lemma boost_middle b es : middle b s' es = rmap (fun m => mmul (mmul (Lt b) m) (Rt (flip_by (length es) b))) (middle b s es).
Proof.
  destruct es as [|e es]; [reflexivity|]. cbn [middle length]. rewrite (lin_entry s s' Lf boost_mom Lf_add Lf_sub).
  destruct (entry_val b s e) as [m|]; cbn [rmap rbind]; [|reflexivity]. rewrite Lf_eq, boost_mid_rest, flip_by_S. reflexivity.
Qed.
Lemma boost_tr es : Nat.even (length es) = true -> c_tr s' es = c_tr s es.
Proof.
  intros Ev. unfold c_tr. rewrite boost_middle. destruct (middle true s es); cbn [rmap rbind]; [|reflexivity].
  rewrite flip_even by exact Ev. cbn. rewrite mtr_comm, mmul_assoc, AA, mmul_1_l. reflexivity.
Qed.
Lemma raise_scale (x : K) (v : v2 K) : raise_r (vscale x (mv A v)) = vscale x (vm (raise_r v) (adj A)).
Proof. unfold raise_r, adj; unfold_vec. apply v2_ext; cbn; ring. Qed.
Lemma raise_scale' (x : K) (v : v2 K) : raise_r (vscale x (vm v B)) = vscale x (mv (adj B) (raise_r v)).
Proof. unfold raise_r, adj; unfold_vec. apply v2_ext; cbn; ring. Qed.
Lemma vm_scale (x : K) (v : v2 K) (m : m2 K) : vm (vscale x v) m = vscale x (vm v m).
Proof. unfold_vec. apply v2_ext; cbn; ring. Qed.
Lemma vdot_scale (x y : K) (v v' : v2 K) : vdot (vscale x v) (vscale y v') = x * y * vdot v v'.
Proof. unfold_vec; ring. Qed.
Lemma boost_row o k p p' : boost_leg A B (w k) p p' -> consistent p -> consistent p' ->
  orow o p' = option_map (fun v => vscale (end_wt (is_ang_o o) (w k)) (vm v (Rt (oflag o)))) (orow o p).
Proof.
  intros [E1 E2 E3] C C'. destruct o; cbn [orow is_ang_o end_wt oflag Rt].
  - rewrite (cons_r _ C), (cons_r _ C'), E1. destruct (r_d p); cbn; [|reflexivity]. rewrite raise_scale. reflexivity.
  - exact E2.
  - exact E2.
Qed.
Lemma boost_col c k p p' : boost_leg A B (w k) p p' -> consistent p -> consistent p' ->
  ccol c p' = option_map (fun v => vscale (end_wt (is_ang_c c) (w k)) (mv (Lt (is_ang_c c)) v)) (ccol c p).
Proof.
  intros [E1 E2 E3] C C'. destruct c; cbn [ccol is_ang_c end_wt Lt].
  - exact E1.
  - rewrite (cons_l _ C), (cons_l _ C'), E2. destruct (l_d p); cbn; [|reflexivity]. rewrite raise_scale'. reflexivity.
  - rewrite (cons_l _ C), (cons_l _ C'), E2. destruct (l_d p); cbn; [|reflexivity]. rewrite raise_scale'. reflexivity.
Qed.
Lemma chain_unfold s0 o a es d c : c_chain s0 o a es d c =
  if negb (bracket_ok o (length es) c) then Err SyntaxError else
  rbind (getitem s0 a) (fun pa => rbind (rbind (middle (oflag o) s0 es) (fun m => rbind (need_r (orow o pa)) (fun v => Ok (vm v m))))
    (fun row => rbind (getitem s0 d) (fun pd => rbind (need_r (ccol c pd)) (fun col => Ok (vdot row col))))).
Proof. unfold c_chain. destruct o, c; reflexivity. Qed.
Lemma boost_chain o a es d c : o <> OLt ->
  c_chain s' o a es d c = rmap (fun x => weight w (IChain o a es d c) * x) (c_chain s o a es d c).
Proof.
  intros No. rewrite !chain_unfold. destruct (bracket_ok o (length es) c) eqn:O; cbn [negb]; [|reflexivity].
  destruct (boost_get a) as [(pa & pa' & -> & -> & La & Ca & Ca')|[-> ->]]; [|reflexivity]. cbn [rbind rmap].
  rewrite boost_middle. destruct (middle (oflag o) s es) as [m|]; cbn [rbind rmap]; [|reflexivity].
  rewrite (boost_row o a pa pa' La Ca Ca'). destruct (orow o pa) as [v|]; cbn [option_map need_r rbind rmap]; [|reflexivity].
  destruct (boost_get d) as [(pd & pd' & -> & -> & Ld & Cd & Cd')|[-> ->]]; [|reflexivity]. cbn [rbind rmap].
  rewrite (boost_col c d pd pd' Ld Cd Cd'). destruct (ccol c pd) as [v'|]; cbn [option_map need_r rbind rmap]; [|reflexivity].
  f_equal. rewrite vm_scale, vdot_scale. cbn [weight]. f_equal.
  rewrite <- vm_mmul, !mmul_assoc, RtLt, mmul_1_l, vm_mmul, vdot_vm, <- mv_mmul.
  replace (flip_by (length es) (oflag o)) with (is_ang_c c).
  - rewrite RtLt, mv_one. reflexivity.
  - unfold bracket_ok, flip_by in *. destruct o; try congruence; destruct (Nat.even (length es)), c; cbn in *; congruence.
Qed.
Lemma boost_A2 a b : c_A2 s' a b = rmap (fun x => w a * w b * x) (c_A2 s a b).
Proof.
  unfold c_A2. destruct (boost_get a) as [(pa & pa' & -> & -> & La & Ca & Ca')|[-> ->]]; [|reflexivity].
  destruct (boost_get b) as [(pb & pb' & -> & -> & Lb & Cb & Cb')|[-> ->]]; [|reflexivity]. cbn [rbind rmap].
  pose proof (boost_row OAng a pa pa' La Ca Ca') as E. pose proof (boost_col CAng b pb pb' Lb Cb Cb') as E'. cbn in E, E'.
  rewrite E, E'. destruct (r_u pa); [|reflexivity]. cbn [option_map need_r rbind rmap]. destruct (r_d pb); [|reflexivity]. cbn [option_map need_r rbind rmap].
  rewrite vdot_scale, vdot_vm, <- mv_mmul, AA, mv_one. reflexivity.
Qed.
Lemma boost_S2 a b : c_S2 s' a b = rmap (fun x => 1 / w a * (1 / w b) * x) (c_S2 s a b).
Proof.
  unfold c_S2. destruct (boost_get a) as [(pa & pa' & -> & -> & La & Ca & Ca')|[-> ->]]; [|reflexivity].
  destruct (boost_get b) as [(pb & pb' & -> & -> & Lb & Cb & Cb')|[-> ->]]; [|reflexivity]. cbn [rbind rmap].
  pose proof (boost_row OSq a pa pa' La Ca Ca') as E. pose proof (boost_col CSq b pb pb' Lb Cb Cb') as E'. cbn in E, E'.
  rewrite E, E'. destruct (l_d pa); [|reflexivity]. cbn [option_map need_r rbind rmap]. destruct (l_u pb); [|reflexivity]. cbn [option_map need_r rbind rmap].
  rewrite vdot_scale, vdot_vm, <- mv_mmul, BB', mv_one. reflexivity.
Qed.
Lemma boost_tr5 a b c d : c_tr5 s' a b c d = c_tr5 s a b c d.
Proof.
  unfold c_tr5. destruct (tr5_rotate 4 a b c d) as [[[[a' b'] c'] d']|]; cbn [rbind]; [|reflexivity].
  rewrite !boost_chain by discriminate.
  destruct (c_chain s OSq (fst a') [b'; c'; d'] (fst a') CAng); cbn [rmap rbind]; [|reflexivity].
  destruct (c_chain s OAng (fst a') [b'; c'; d'] (fst a') CSq); cbn [rmap rbind]; [|reflexivity].
  f_equal. cbn [weight is_ang_o is_ang_c end_wt]. field. apply (bo_w _ _ _ _ _ H).
Qed.
Lemma rmap_one (x : result K) : x = rmap (fun y => 1 * y) x.
Proof. destruct x; cbn; [|reflexivity]. f_equal. ring. Qed.
Lemma boost_compute e : closed e -> scalar (compute s' e) = rmap (fun x => weight w e * x) (scalar (compute s e)).
Proof.
  assert (sc : forall r : result K, scalar (rmap VS r) = r) by (intros []; reflexivity).
  pose proof (lin_S s s' Lf boost_mom Lf_add Lf_0 (Lf_det false)) as ES.
  destruct e; cbn [closed]; intros Hc; try contradiction; cbn [compute weight]; rewrite ?sc.
  - rewrite boost_tr5. apply rmap_one.
  - rewrite boost_tr by exact Hc. apply rmap_one.
  - rewrite (lin_Omega s s' Lf boost_mom Lf_add Lf_0 (Lf_det false) (bo_len _ _ _ _ _ H)). apply rmap_one.
  - rewrite (lin_Pi s s' Lf boost_mom Lf_add Lf_0 (Lf_det false) (bo_len _ _ _ _ _ H)). apply rmap_one.
  - rewrite (lin_delta s s' Lf boost_mom Lf_add Lf_0 Lf_tr). apply rmap_one.
  - rewrite (lin_delta3 s s' Lf boost_mom Lf_add Lf_0 (Lf_det false) Lf_tr (bo_len _ _ _ _ _ H) ijk (Lf_det true)). apply rmap_one.
  - rewrite (lin_delta5 s s' Lf boost_mom Lf_add Lf_0 (Lf_det false)). apply rmap_one.
  - rewrite ES. apply rmap_one.
  - rewrite ES. apply rmap_one.
  - apply boost_A2.
  - apply boost_S2.
  - apply boost_chain, Hc.
Qed.
End Boost.

End Thm.
