(* Proofs about Slice.v. *)
From Coq Require Import List ZArith Bool Lia Ring Field.
From Verif Require Import Base Fld Particle ParticleSpec ParticleThm Index IndexThm Phase PhaseSpec PhaseThm Compute ComputeSpec ComputeThm Slice.
Import ListNotations.

Section Slice.
Context {K : Fld}.
Open Scope fld_scope.
Add Field Ksl1 : (fth K).

Definition peval (t : K) (p : list K) : K := fold_right (fun a acc => a + t * acc) 0 p.
Lemma peval_add t p : forall q, peval t (pplus p q) = peval t p + peval t q.
Proof. unfold pplus. induction p as [|a p IH]; intros [|b q]; cbn [padd peval fold_right]; try ring. fold (peval t (padd fadd p q)). rewrite IH. unfold peval. ring. Qed.
Lemma peval_scale t a q : peval t (map (fmul a) q) = a * peval t q.
Proof. induction q as [|b q IH]; cbn; [ring|]. fold (peval t (map (fmul a) q)). rewrite IH. unfold peval. ring. Qed.
Lemma peval_mul t p q : peval t (ptimes p q) = peval t p * peval t q.
Proof.
  unfold ptimes. induction p as [|a p IH]; [cbn; ring|]. cbn [pmul]. change (padd fadd) with (@pplus K). rewrite peval_add, peval_scale.
  cbn [peval fold_right]. fold (peval t (pmul 0 fadd fmul p q)). fold (peval t p). rewrite IH. ring.
Qed.
Lemma peval_neg t p : peval t (pneg p) = - peval t p.
Proof. unfold pneg. induction p as [|a p IH]; cbn; [ring|]. fold (peval t (map fopp p)). rewrite IH. unfold peval. ring. Qed.
Lemma peval_zero t p : Forall (fun c => c = 0) p -> peval t p = 0.
Proof. induction 1 as [|c p -> H IH]; cbn; [reflexivity|]. fold (peval t p). rewrite IH. ring. Qed.

(* the values of polynomial spinors at t *)
Definition at_t (t : K) (x : list K * list K) : v2 K := V2 (peval t (fst x)) (peval t (snd x)).
Lemma at_shifted t v x eta : at_t t (shifted v x eta) = vadd v (vscale (t * x) eta).
Proof. unfold at_t, shifted, peval. apply v2_ext; unfold_vec; cbn; ring. Qed.

(* a particle with given spinors *)
Definition good (p : particle K) (r l : v2 K) : Prop := fresh p /\ r_d p = Some r /\ l_d p = Some l /\ r2 p = outer (raise_r l) (raise_r r).
Lemma assign_both p (r l : v2 K) : fresh p -> exists q, rbind (assignR (assign_r_sp_d r) p) (fun p1 => assignR (assign_l_sp_d l) p1) = Ok q /\ good q r l.
Proof.
  intros (C & (r0 & l0 & R0 & L0 & _ & _ & RU & LU) & _). unfold assignR at 1. pose proof (step_rd r p C) as C1. rewrite (assign_r_sp_d_eq r p l0 L0 LU) in *. cbn [rbind fst] in *.
  unfold assignR. match goal with |- context [assign_l_sp_d l ?q] => set (p1 := q) in * end. pose proof (step_ld l p1 C1) as C2.
  rewrite (assign_l_sp_d_eq l p1 r eq_refl eq_refl) in *. cbn [fst] in C2. eexists. split; [reflexivity|]. match goal with |- good ?q _ _ => set (p2 := q) in * end.
  split; [|repeat split; reflexivity]. split; [exact C2|]. split; [exists r, l; repeat split; reflexivity|].
  rewrite (lsq_det p2 (cons_r2b p2 C2)). cbn [p2 r2]. unfold_vec. unfold raise_r. cbn. ring.
Qed.

Notation pair_s := (@pspinor K * @pspinor K)%type.
Definition rel (t : K) (x : pair_s) (p : particle K) : Prop := good p (at_t t (fst x)) (at_t t (snd x)).
Definition is_shift (er el : v2 K) (x : pair_s) : Prop := exists r a l b, x = (shifted r a er, shifted l b el).

Lemma slice_shift (er el : v2 K) s : forall xs ys, Forall (fun p => fresh p) s -> length xs = length s -> length ys = length s ->
  exists l, shift_all s xs ys er el = Ok l /\ length l = length s /\ Forall (is_shift er el) l /\
    forall t, exists st, slice_at t s xs ys er el = Ok st /\ Forall2 (rel t) l st.
Proof.
  unfold shift_all, slice_at.
  induction s as [|p s IH]; intros [|x xs] [|y ys] F L1 L2; try discriminate.
  - exists []. split; [reflexivity|]. split; [reflexivity|]. split; [constructor|]. intros t. exists []. split; [reflexivity|constructor].
  - inversion F as [|? ? Fp Fs]; subst. destruct (IH xs ys Fs ltac:(cbn in L1; lia) ltac:(cbn in L2; lia)) as (l & E & LL & SH & H).
    pose proof Fp as (_ & (r & lv & R & L & _) & _). cbn [combine rmapM fst snd]. rewrite R, L, E.
    eexists. split; [reflexivity|]. split; [cbn; f_equal; exact LL|]. split; [constructor; [|exact SH]; exists r, x, lv, y; reflexivity|].
    intros t. destruct (H t) as (st & Es & RR). destruct (assign_both p (vadd r (vscale (t * x) er)) (vadd lv (vscale (t * y) el)) Fp) as (q & Eq & G).
    rewrite Eq, Es. eexists. split; [reflexivity|]. constructor; [|exact RR]. unfold rel. cbn [fst snd]. rewrite !at_shifted. exact G.
Qed.

Definition m4 (l : list K) : m2 K := match l with [a; b; c; d] => M2 a b c d | _ => mzero end.
Lemma sum_total t l st : Forall2 (rel t) l st -> length (sum_entries l) = 4%nat /\ total_mom st = m4 (map (peval t) (sum_entries l)).
Proof.
  induction 1 as [|x p l st R F [L IH]]; [split; reflexivity|]. cbn [sum_entries fold_right]. fold (sum_entries l).
  destruct (sum_entries l) as [|a [|b [|c [|d [|? ?]]]]]; try discriminate L.
  destruct x as [[r0 r1] [l0 l1]]. split; [reflexivity|].
  unfold total_mom in *. cbn [map msum fold_right] in *. fold (msum (map (fun p => r2 p) st)). unfold msum in *. rewrite IH.
  destruct R as (_ & _ & _ & E). rewrite E. cbn [leg_entries combine map fst snd m4]. rewrite !peval_add, ?peval_neg, !peval_mul.
  unfold at_t. cbn [fst snd]. apply m2_ext; unfold_vec; unfold raise_r; cbn; ring.
Qed.
Lemma rel_get t l st : Forall2 (rel t) l st -> forall a x, getitem l a = Ok x -> exists p, getitem st a = Ok p /\ rel t x p.
Proof.
  intros F a x H. apply getitem_inv in H as [H N]. assert (LL : length l = length st) by (clear -F; induction F; cbn; auto).
  destruct (getitem_ok st a) as (p & Ep & Np); [unfold zlen in *; lia|]. exists p. split; [exact Ep|].
  clear -F N Np. revert N Np. generalize (Z.to_nat (a - 1)). induction F; intros [|k] Nx Np; cbn in *; try discriminate; [congruence|eauto].
Qed.
Lemma rel_sound t l st : Forall2 (rel t) l st -> sound st.
Proof. intros F. apply Forall_forall. intros p Hp. induction F as [|x q l st R F IH]; [contradiction|]. destruct Hp as [<-|Hp]; [apply R|auto]. Qed.
Lemma pang_eval t l st a b p : Forall2 (rel t) l st -> pang l a b = Ok p -> c_A2 st a b = Ok (peval t p).
Proof.
  intros F H. apply rbind_ok in H as ([[x1 x2] [x3 x4]] & Ex & H). apply rbind_ok in H as ([[y1 y2] [y3 y4]] & Ey & H). inversion H; subst p. clear H.
  destruct (rel_get t l st F a _ Ex) as (pa & Ga & (_ & Ra & _)). destruct (rel_get t l st F b _ Ey) as (pb & Gb & (_ & Rb & _)).
  rewrite (A2_make st a b pa pb _ _ (rel_sound t l st F) Ga Gb Ra Rb). f_equal. rewrite peval_add, peval_neg, !peval_mul. unfold at_t, raise_r, vdot. cbn [e0 e1 fst snd]. ring.
Qed.
Lemma psq_eval t l st a b p : Forall2 (rel t) l st -> psq l a b = Ok p -> c_S2 st a b = Ok (peval t p).
Proof.
  intros F H. apply rbind_ok in H as ([[x1 x2] [x3 x4]] & Ex & H). apply rbind_ok in H as ([[y1 y2] [y3 y4]] & Ey & H). inversion H; subst p. clear H.
  destruct (rel_get t l st F a _ Ex) as (pa & Ga & (_ & _ & La & _)). destruct (rel_get t l st F b _ Ey) as (pb & Gb & (_ & _ & Lb & _)).
  rewrite (S2_make st a b pa pb _ _ (rel_sound t l st F) Ga Gb La Lb). f_equal. rewrite peval_add, peval_neg, !peval_mul. unfold at_t, raise_r, vdot. cbn [e0 e1 fst snd]. ring.
Qed.
Lemma ceval_eval t l st e p : Forall2 (rel t) l st -> ceval (fun c => [c]) pplus ptimes (pang l) (psq l) e = Ok p ->
  ceval (fun c => c) fadd fmul (c_A2 st) (c_S2 st) e = Ok (peval t p).
Proof.
  intros F. revert p. induction e; intros p H; cbn [ceval] in *.
  - apply (pang_eval t l); assumption.
  - apply (psq_eval t l); assumption.
  - inversion H. cbn. f_equal. ring.
  - apply rbind_ok in H as (x & Ex & H). apply rbind_ok in H as (y & Ey & H). inversion H; subst. rewrite (IHe1 x Ex), (IHe2 y Ey). cbn [rbind]. rewrite peval_add. reflexivity.
  - apply rbind_ok in H as (x & Ex & H). apply rbind_ok in H as (y & Ey & H). inversion H; subst. rewrite (IHe1 x Ex), (IHe2 y Ey). cbn [rbind]. rewrite peval_mul. reflexivity.
Qed.
Lemma shift_get (er el : v2 K) l a : Forall (is_shift er el) l -> (1 <= a <= zlen l)%Z -> exists r x lv y, getitem l a = Ok (shifted r x er, shifted lv y el).
Proof.
  intros F H. destruct (getitem_ok l a H) as (x & Ex & N). rewrite Forall_forall in F. destruct (F x (nth_error_In _ _ N)) as (r & u & lv & w & ->). eauto.
Qed.
Lemma forall_concat {A} (P : A -> Prop) (l : list (list A)) : Forall P (concat l) -> Forall (Forall P) l.
Proof. induction l as [|x l IH]; cbn; intros H; [constructor|]. apply Forall_app in H as [H1 H2]. constructor; auto. Qed.

Theorem slice_thm s xs ys (er el : v2 K) constraints eqs : Forall (fun p => fresh p) s -> length xs = length s -> length ys = length s ->
  equations s xs ys er el constraints = Ok eqs -> Forall (fun c => c = 0) eqs ->
  forall t, exists st, slice_at t s xs ys er el = Ok st /\ length st = length s /\ Forall (fun p => fresh p) st /\ total_mom st = mzero /\
    Forall (fun e => ceval (fun c => c) fadd fmul (c_A2 st) (c_S2 st) e = Ok 0) constraints.
Proof.
  intros F L1 L2 E Z t. destruct (slice_shift er el s xs ys F L1 L2) as (l & El & LL & _ & H). destruct (H t) as (st & Es & R). exists st. split; [exact Es|].
  unfold equations in E. rewrite El in E. cbn [rbind] in E. apply rbind_ok in E as (cs & Ec & E). inversion E; subst eqs.
  apply forall_concat in Z. apply Forall_app in Z as [Z1 Z2]. split; [rewrite <- LL; clear -R; induction R; cbn; auto|].
  split; [clear -R; induction R as [|? ? ? ? [G _] ?]; constructor; auto|]. split.
  - destruct (sum_total t l st R) as [L4 T]. rewrite T. destruct (sum_entries l) as [|a [|b [|c [|d [|? ?]]]]]; try discriminate L4.
    inversion Z1 as [|? ? Za Z1']; subst. inversion Z1' as [|? ? Zb Z1'']; subst. inversion Z1'' as [|? ? Zc Z1'3]; subst. inversion Z1'3 as [|? ? Zd _]; subst.
    cbn [map m4]. rewrite !peval_zero by assumption. reflexivity.
  - clear -Ec Z2 R. revert cs Ec Z2. induction constraints as [|e es IH]; intros cs Ec Z2; [constructor|]. cbn [rmapM] in Ec.
    destruct (ceval _ _ _ _ _ e) as [p|] eqn:Ep; [|discriminate]. destruct (rmapM _ es) as [ps|] eqn:Ps; [|discriminate]. inversion Ec; subst cs. inversion Z2; subst.
    constructor; [|eapply IH; eauto]. rewrite (ceval_eval t l st e p R Ep), peval_zero by assumption. reflexivity.
Qed.
Theorem slice_affine s xs ys (er el : v2 K) : Forall (fun p => fresh p) s -> length xs = length s -> length ys = length s ->
  forall a b, (1 <= a <= zlen s)%Z -> (1 <= b <= zlen s)%Z ->
  exists u v u' v' : K, forall t st, slice_at t s xs ys er el = Ok st -> c_A2 st a b = Ok (u + t * v) /\ c_S2 st a b = Ok (u' + t * v').
Proof.
  intros F L1 L2 a b Ha Hb. destruct (slice_shift er el s xs ys F L1 L2) as (l & El & LL & SH & H).
  destruct (shift_get er el l a SH) as (ra & xa & la & ya & Ga); [unfold zlen in *; lia|]. destruct (shift_get er el l b SH) as (rb & xb & lb & yb & Gb); [unfold zlen in *; lia|].
  exists (vdot (raise_r ra) rb), (xb * vdot (raise_r ra) er + xa * vdot (raise_r er) rb), (vdot la (raise_r lb)), (yb * vdot la (raise_r el) + ya * vdot el (raise_r lb)).
  intros t st Es. destruct (H t) as (st' & Es' & R). rewrite Es in Es'. inversion Es'; subst st'.
  assert (P1 : exists p, pang l a b = Ok p /\ peval t p = vdot (raise_r ra) rb + t * (xb * vdot (raise_r ra) er + xa * vdot (raise_r er) rb)).
  { unfold pang. rewrite Ga, Gb. cbn [rbind]. eexists. split; [reflexivity|]. rewrite peval_add, peval_neg, !peval_mul. unfold shifted, peval, raise_r, vdot. cbn. ring. }
  assert (P2 : exists p, psq l a b = Ok p /\ peval t p = vdot la (raise_r lb) + t * (yb * vdot la (raise_r el) + ya * vdot el (raise_r lb))).
  { unfold psq. rewrite Ga, Gb. cbn [rbind]. eexists. split; [reflexivity|]. rewrite peval_add, peval_neg, !peval_mul. unfold shifted, peval, raise_r, vdot. cbn. ring. }
  destruct P1 as (p1 & E1 & <-). destruct P2 as (p2 & E2 & <-). split; [eapply pang_eval; eauto|eapply psq_eval; eauto].
Qed.

(* two variables *)
Definition peval2 (t1 t2 : K) (p : list (list K)) : K := fold_right (fun c acc => peval t2 c + t1 * acc) 0 p.
Lemma peval2_add t1 t2 p : forall q, peval2 t1 t2 (pplus2 p q) = peval2 t1 t2 p + peval2 t1 t2 q.
Proof.
  unfold pplus2. induction p as [|a p IH]; intros [|b q]; cbn [padd peval2 fold_right]; try ring. fold (peval2 t1 t2 (padd pplus p q)). rewrite IH, peval_add. unfold peval2. ring.
Qed.
Lemma peval2_scale t1 t2 a q : peval2 t1 t2 (map (ptimes a) q) = peval t2 a * peval2 t1 t2 q.
Proof. induction q as [|b q IH]; cbn; [ring|]. fold (peval2 t1 t2 (map (ptimes a) q)). rewrite IH, peval_mul. unfold peval2. ring. Qed.
Lemma peval2_mul t1 t2 p q : peval2 t1 t2 (ptimes2 p q) = peval2 t1 t2 p * peval2 t1 t2 q.
Proof.
  unfold ptimes2. induction p as [|a p IH]; [cbn; ring|]. cbn [pmul]. change (padd pplus) with (@pplus2 K). rewrite peval2_add, peval2_scale.
  cbn [peval2 fold_right peval]. fold (peval2 t1 t2 (pmul [] pplus ptimes p q)). fold (peval2 t1 t2 p). rewrite IH. ring.
Qed.
Lemma peval2_neg t1 t2 p : peval2 t1 t2 (pneg2 p) = - peval2 t1 t2 p.
Proof. unfold pneg2. induction p as [|a p IH]; cbn; [ring|]. fold (peval2 t1 t2 (map pneg p)). rewrite IH, peval_neg. unfold peval2. ring. Qed.
Lemma peval2_zero t1 t2 p : Forall (Forall (fun c => c = 0)) p -> peval2 t1 t2 p = 0.
Proof. induction 1 as [|c p C H IH]; cbn; [reflexivity|]. fold (peval2 t1 t2 p). rewrite IH, peval_zero by exact C. ring. Qed.
Definition at_t2 (t1 t2 : K) (x : list (list K) * list (list K)) : v2 K := V2 (peval2 t1 t2 (fst x)) (peval2 t1 t2 (snd x)).
Lemma at_shifted2 t1 t2 v x eta x' eta' : at_t2 t1 t2 (shifted2 v x eta x' eta') = vadd v (vadd (vscale (t1 * x) eta) (vscale (t2 * x') eta')).
Proof. unfold at_t2, shifted2, peval2, peval. apply v2_ext; unfold_vec; cbn; ring. Qed.
Notation pair_s2 := ((list (list K) * list (list K)) * (list (list K) * list (list K)))%type.
Definition rel2 (t1 t2 : K) (x : pair_s2) (p : particle K) : Prop := good p (at_t2 t1 t2 (fst x)) (at_t2 t1 t2 (snd x)).
Lemma slice_shift2 (er1 el1 er2 el2 : v2 K) s : forall us, Forall (fun p => fresh p) s -> length us = length s ->
  exists l, shift_all2 s us er1 el1 er2 el2 = Ok l /\ length l = length s /\
    forall t1 t2, exists st, slice_at2 t1 t2 s us er1 el1 er2 el2 = Ok st /\ Forall2 (rel2 t1 t2) l st.
Proof.
  unfold shift_all2, slice_at2.
  induction s as [|p s IH]; intros [|u us] F L1; try discriminate.
  - exists []. split; [reflexivity|]. split; [reflexivity|]. intros t1 t2. exists []. split; [reflexivity|constructor].
  - inversion F as [|? ? Fp Fs]; subst. destruct (IH us Fs ltac:(cbn in L1; lia)) as (l & E & LL & H).
    pose proof Fp as (_ & (r & lv & R & L & _) & _). cbn [combine rmapM fst snd]. rewrite R, L, E.
    eexists. split; [reflexivity|]. split; [cbn; f_equal; exact LL|].
    intros t1 t2. destruct (H t1 t2) as (st & Es & RR). cbv zeta.
    destruct (assign_both p (vadd r (vadd (vscale (t1 * ux1 u) er1) (vscale (t2 * ux2 u) er2))) (vadd lv (vadd (vscale (t1 * uy1 u) el1) (vscale (t2 * ux2 u) el2))) Fp) as (q & Eq & G).
    rewrite Eq, Es. eexists. split; [reflexivity|]. constructor; [|exact RR]. unfold rel2. cbn [fst snd]. rewrite !at_shifted2. exact G.
Qed.
Lemma sum_total2 t1 t2 l st : Forall2 (rel2 t1 t2) l st -> length (sum_entries2 l) = 4%nat /\ total_mom st = m4 (map (peval2 t1 t2) (sum_entries2 l)).
Proof.
  induction 1 as [|x p l st R F [L IH]]; [split; reflexivity|]. cbn [sum_entries2 fold_right]. fold (sum_entries2 l).
  destruct (sum_entries2 l) as [|a [|b [|c [|d [|? ?]]]]]; try discriminate L.
  destruct x as [[r0 r1] [l0 l1]]. split; [reflexivity|].
  unfold total_mom in *. cbn [map msum fold_right] in *. unfold msum in *. rewrite IH.
  destruct R as (_ & _ & _ & E). rewrite E. cbn [leg_entries2 combine map fst snd m4]. rewrite !peval2_add, ?peval2_neg, !peval2_mul.
  unfold at_t2. cbn [fst snd]. apply m2_ext; unfold_vec; unfold raise_r; cbn; ring.
Qed.
Theorem slice2_thm s us (er1 el1 er2 el2 : v2 K) eqs : Forall (fun p => fresh p) s -> length us = length s ->
  equations2 s us er1 el1 er2 el2 = Ok eqs -> Forall (fun c => c = 0) eqs ->
  forall t1 t2, exists st, slice_at2 t1 t2 s us er1 el1 er2 el2 = Ok st /\ length st = length s /\ Forall (fun p => fresh p) st /\ total_mom st = mzero.
Proof.
  intros F L1 E Z t1 t2. destruct (slice_shift2 er1 el1 er2 el2 s us F L1) as (l & El & LL & H). destruct (H t1 t2) as (st & Es & R). exists st. split; [exact Es|].
  unfold equations2 in E. rewrite El in E. cbn [rmap] in E. inversion E; subst eqs.
  apply forall_concat in Z. apply forall_concat in Z. split; [rewrite <- LL; clear -R; induction R; cbn; auto|].
  split; [clear -R; induction R as [|? ? ? ? [G _] ?]; constructor; auto|].
  destruct (sum_total2 t1 t2 l st R) as [L4 T]. rewrite T. destruct (sum_entries2 l) as [|a [|b [|c [|d [|? ?]]]]]; try discriminate L4.
  inversion Z as [|? ? Za Z1']; subst. inversion Z1' as [|? ? Zb Z1'']; subst. inversion Z1'' as [|? ? Zc Z1'3]; subst. inversion Z1'3 as [|? ? Zd _]; subst.
  cbn [map m4]. rewrite !peval2_zero by assumption. reflexivity.
Qed.
(* the unknowns ys2 occur in no equation and in no point *)
Definition forget_y2 (u : @unknowns K) (y : K) : unknowns := U (ux1 u) (uy1 u) (ux2 u) y.
Theorem slice2_no_y2 t1 t2 s us ys (er1 el1 er2 el2 : v2 K) : length ys = length us ->
  let us' := map (fun uy => forget_y2 (fst uy) (snd uy)) (combine us ys) in
  equations2 s us' er1 el1 er2 el2 = equations2 s us er1 el1 er2 el2 /\ slice_at2 t1 t2 s us' er1 el1 er2 el2 = slice_at2 t1 t2 s us er1 el1 er2 el2.
Proof.
  intros L. cbv zeta. unfold equations2, shift_all2, slice_at2. split; [f_equal|]; revert us ys L; induction s as [|p s IH]; intros [|u us] [|y ys] L; try discriminate; try reflexivity;
    cbn [combine map rmapM fst snd]; rewrite (IH us ys) by (cbn in L; lia); reflexivity.
Qed.
End Slice.
