(* Proofs about SetOne.v, ninth part: tr5 with five legs (Tr5.v). *)
From Coq Require Import List ZArith Bool Lia Ring Field Permutation.
From Verif Require Import Base Fld Particle ParticleSpec ParticleThm Index IndexThm Phase PhaseSpec PhaseThm
  Arcs ArcsSpec ArcsThm Compute ComputeSpec ComputeThm ComputeThm2 ComputeThm3 GramThm DetThm ToFieldThm
  Tr5 SetOne SetSpec SetThm SetThm2 SetThm3 SetThm4 SetThm5 SetThm6 SetThm7 SetThm8.
Import ListNotations.

Section Five.
Context {K : Fld}.
Open Scope fld_scope.
Add Field Kset9 : (fth K).

Definition det3 (y1 y2 y3 z1 z2 z3 w1 w2 w3 : K) : K := y1 * (z2 * w3 - z3 * w2) - y2 * (z1 * w3 - z3 * w1) + y3 * (z1 * w2 - z2 * w1).
Definition det4 (x0 x1 x2 x3 y0 y1 y2 y3 z0 z1 z2 z3 w0 w1 w2 w3 : K) : K :=
  x0 * det3 y1 y2 y3 z1 z2 z3 w1 w2 w3 - x1 * det3 y0 y2 y3 z0 z2 z3 w0 w2 w3 + x2 * det3 y0 y1 y3 z0 z1 z3 w0 w1 w3 - x3 * det3 y0 y1 y2 z0 z1 z2 w0 w1 w2.
Lemma T5_det (P Q R S : m2 K) : T5 P Q R S =
  det4 (m00 P) (m01 P) (m10 P) (m11 P) (m00 Q) (m01 Q) (m10 Q) (m11 Q) (m00 R) (m01 R) (m10 R) (m11 R) (m00 S) (m01 S) (m10 S) (m11 S).
Proof. unfold det4, det3. destruct P, Q, R, S. unfold T5, adj; unfold_vec. ring. Qed.

Section Solve.
Variables a2 a3 a4 b2 b3 b4 c1 c2 c3 c4 d1 d2 d3 d4 X : K.
Definition Qac := a2 * c2 + a3 * c3 + a4 * c4.
Definition Qad := a2 * d2 + a3 * d3 + a4 * d4.
Definition Qbc := b2 * c2 + b3 * c3 + b4 * c4.
Definition Qbd := b2 * d2 + b3 * d3 + b4 * d4.
Definition Qdet := Qac * Qbd - Qad * Qbc.
Definition Qal := c1 * Qad - d1 * Qac.
Definition Qbe := c1 * Qbd - d1 * Qbc.
(* coefficients of a1 c1, a1 d1, b1 c1, b1 d1 in tr5 *)
Definition pmx (a b c d : K) : m2 K := outer (raise_r (V2 c d)) (raise_r (V2 a b)).
Definition T1 (a1 b1 c1 d1 : K) : K := T5 (pmx a1 b1 c1 d1) (pmx a2 b2 c2 d2) (pmx a3 b3 c3 d3) (pmx a4 b4 c4 d4).
Lemma T1_eq a b c d : T1 a b c d =
  det4 (d * b) (- (d * a)) (- (c * b)) (c * a) (d2 * b2) (- (d2 * a2)) (- (c2 * b2)) (c2 * a2)
     (d3 * b3) (- (d3 * a3)) (- (c3 * b3)) (c3 * a3) (d4 * b4) (- (d4 * a4)) (- (c4 * b4)) (c4 * a4).
Proof. unfold T1. rewrite T5_det. unfold det4, det3, pmx, raise_r; unfold_vec. cbn [e0 e1 m00 m01 m10 m11]. ring. Qed.
Definition U0 := T1 1 0 c1 d1.
Definition U1 := T1 0 1 c1 d1.
Lemma q4 (t : K) : t * (2 * 2 * X) / (2 * 2) = t * X.
Proof. assert (N2 : (2:K)<>0) by apply f2_nz. field. repeat split; first [exact N2 | exact (mul_nz 2 2 N2 N2)]. Qed.
Lemma T1_lin (a1 b1 : K) : T1 a1 b1 c1 d1 = a1 * U0 + b1 * U1.
Proof. unfold U0, U1. rewrite !T1_eq. unfold det4, det3. ring. Qed.
Lemma b1_num_eq : b1_num a2 a3 a4 b2 b3 b4 c1 c2 c3 c4 d1 d2 d3 d4 (2 * 2 * X) = - (X * Qbe + U0 * Qdet).
Proof. unfold b1_num. rewrite !q4. unfold U0. rewrite !T1_eq. unfold det4, det3. unfold Qbe, Qdet, Qac, Qad, Qbc, Qbd. ring. Qed.
Lemma b1_den_eq : b1_den a2 a3 a4 b2 b3 b4 c1 c2 c3 c4 d1 d2 d3 d4 (2 * 2 * X) = - (U0 * Qal + U1 * Qbe).
Proof. unfold b1_den. unfold U0, U1. rewrite !T1_eq. unfold det4, det3. unfold Qal, Qbe, Qdet, Qac, Qad, Qbc, Qbd. ring. Qed.
Definition uc := T1 1 0 1 0.
Definition ud := T1 1 0 0 1.
Lemma U0_split : U0 = c1 * uc + d1 * ud.
Proof. unfold U0, uc, ud. rewrite !T1_eq. unfold det4, det3. ring. Qed.
Lemma a1_den_eq b1 : a1_den b1 a2 a3 a4 b2 b3 b4 c1 c2 c3 c4 d1 d2 d3 d4 (2 * 2 * X) = d1 * (ud * Qbd + uc * Qbc).
Proof. unfold a1_den, uc, ud. rewrite !T1_eq. unfold det4, det3. unfold Qbd, Qbc. ring. Qed.
Lemma a1_num_eq b1 : a1_num b1 a2 a3 a4 b2 b3 b4 c1 c2 c3 c4 d1 d2 d3 d4 (2 * 2 * X) = X * Qbd - U1 * Qbd * b1 + uc * (Qdet - b1 * Qal).
Proof. unfold a1_num. rewrite !q4. unfold U1, uc, ud. rewrite !T1_eq. unfold det4, det3. unfold Qal, Qdet, Qac, Qad, Qbd, Qbc. ring. Qed.
Lemma c5_num_eq d5 : c5_num d5 a2 a3 a4 b2 b3 b4 c1 c2 c3 c4 d1 d2 d3 d4 (2 * 2 * X) = d5 * (2 * 2 * (c1 * X + U0 * Qac + U1 * Qbc)).
Proof. unfold c5_num, U0, U1. rewrite !T1_eq. unfold det4, det3. unfold Qac, Qad, Qbd, Qbc. ring. Qed.
Lemma c5_den_eq d5 : c5_den d5 a2 a3 a4 b2 b3 b4 c1 c2 c3 c4 d1 d2 d3 d4 (2 * 2 * X) = 2 * 2 * (d1 * X + U0 * Qad + U1 * Qbd).
Proof. unfold c5_den, U0, U1. rewrite !T1_eq. unfold det4, det3. unfold Qac, Qad, Qbd, Qbc. ring. Qed.
End Solve.
Section Lin.
Variables P1 P2 P3 P4 : m2 K.
Definition lc (x0 x1 x2 x3 : K) : m2 K := madd (madd (mscale x0 P1) (mscale x1 P2)) (madd (mscale x2 P3) (mscale x3 P4)).
Lemma T5_lc x0 x1 x2 x3 y0 y1 y2 y3 z0 z1 z2 z3 w0 w1 w2 w3 :
  T5 (lc x0 x1 x2 x3) (lc y0 y1 y2 y3) (lc z0 z1 z2 z3) (lc w0 w1 w2 w3) =
  det4 x0 x1 x2 x3 y0 y1 y2 y3 z0 z1 z2 z3 w0 w1 w2 w3 * T5 P1 P2 P3 P4.
Proof. rewrite !T5_det. unfold lc, mscale, madd. cbn [m00 m01 m10 m11]. unfold det4, det3. ring. Qed.
End Lin.

Lemma solve_five (l1 r2 l2 r3 l3 r4 l4 : v2 K) (d5 X : K) (r1 r5 : v2 K) (c5 : K) : tr5_five l1 r2 l2 r3 l3 r4 l4 d5 (2 * 2 * X) = Ok (r1, r5, c5) ->
  madd (outer (raise_r l1) (raise_r r1)) (madd (outer (raise_r l2) (raise_r r2)) (madd (outer (raise_r l3) (raise_r r3)) (madd (outer (raise_r l4) (raise_r r4))
    (madd (outer (raise_r (V2 c5 d5)) (raise_r r5)) mzero)))) = mzero /\
  T5 (outer (raise_r l1) (raise_r r1)) (outer (raise_r l2) (raise_r r2)) (outer (raise_r l3) (raise_r r3)) (outer (raise_r l4) (raise_r r4)) = X.
Proof.
  destruct l1 as [c1 d1], r2 as [a2 b2], l2 as [c2 d2], r3 as [a3 b3], l3 as [c3 d3], r4 as [a4 b4], l4 as [c4 d4].
  unfold tr5_five. cbn [e0 e1]. intros H.
  pose proof (b1_num_eq a2 a3 a4 b2 b3 b4 c1 c2 c3 c4 d1 d2 d3 d4 X) as Bn. pose proof (b1_den_eq a2 a3 a4 b2 b3 b4 c1 c2 c3 c4 d1 d2 d3 d4 X) as Bd.
  pose proof (fun b1 => a1_num_eq a2 a3 a4 b2 b3 b4 c1 c2 c3 c4 d1 d2 d3 d4 X b1) as An. pose proof (fun b1 => a1_den_eq a2 a3 a4 b2 b3 b4 c1 c2 c3 c4 d1 d2 d3 d4 X b1) as Ad.
  pose proof (c5_num_eq a2 a3 a4 b2 b3 b4 c1 c2 c3 c4 d1 d2 d3 d4 X d5) as Cn. pose proof (c5_den_eq a2 a3 a4 b2 b3 b4 c1 c2 c3 c4 d1 d2 d3 d4 X d5) as Cd.
  pose proof (U0_split a2 a3 a4 b2 b3 b4 c1 c2 c3 c4 d1 d2 d3 d4) as US.
  pose proof (T1_lin a2 a3 a4 b2 b3 b4 c1 c2 c3 c4 d1 d2 d3 d4) as TL.
  rewrite Bn, Bd in H. clear Bn Bd. set (u0 := U0 a2 a3 a4 b2 b3 b4 c1 c2 c3 c4 d1 d2 d3 d4) in *. set (u1 := U1 a2 a3 a4 b2 b3 b4 c1 c2 c3 c4 d1 d2 d3 d4) in *.
  set (uc_ := uc a2 a3 a4 b2 b3 b4 c2 c3 c4 d2 d3 d4) in *. set (ud_ := ud a2 a3 a4 b2 b3 b4 c2 c3 c4 d2 d3 d4) in *.
  set (qac := Qac a2 a3 a4 c2 c3 c4) in *. set (qad := Qad a2 a3 a4 d2 d3 d4) in *. set (qbc := Qbc b2 b3 b4 c2 c3 c4) in *. set (qbd := Qbd b2 b3 b4 d2 d3 d4) in *.
  assert (QD : Qdet a2 a3 a4 b2 b3 b4 c2 c3 c4 d2 d3 d4 = qac * qbd - qad * qbc) by reflexivity. set (qdet := Qdet a2 a3 a4 b2 b3 b4 c2 c3 c4 d2 d3 d4) in *.
  assert (QA : Qal a2 a3 a4 c1 c2 c3 c4 d1 d2 d3 d4 = c1 * qad - d1 * qac) by reflexivity. set (al := Qal a2 a3 a4 c1 c2 c3 c4 d1 d2 d3 d4) in *.
  assert (QB : Qbe b2 b3 b4 c1 c2 c3 c4 d1 d2 d3 d4 = c1 * qbd - d1 * qbc) by reflexivity. set (be := Qbe b2 b3 b4 c1 c2 c3 c4 d1 d2 d3 d4) in *.
  destruct (divE _ _) as [b1|] eqn:E1 in H; [|discriminate]. cbn [rbind] in H. rewrite An, Ad in H.
  destruct (divE _ _) as [a1|] eqn:E2 in H; [|discriminate]. cbn [rbind] in H. rewrite Cn, Cd in H.
  destruct (divE _ _) as [c5'|] eqn:E3 in H; [|discriminate]. cbn [rbind] in H.
  destruct (divE _ _) as [b5|] eqn:E4 in H; [|discriminate]. cbn [rbind] in H.
  destruct (divE _ _) as [a5|] eqn:E5 in H; [|discriminate]. cbn [rbind] in H.
  assert (R1 : r1 = V2 a1 b1) by congruence. assert (R5 : r5 = V2 a5 b5) by congruence. assert (R6 : c5' = c5) by congruence. clear H An Ad Cn Cd. subst c5'.
  assert (DI : forall x y z : K, divE x y = Ok z -> y <> 0 /\ x = z * y).
  { intros x y z E. destruct (feq_dec y) as [Z|NZ]; [rewrite (divE_0 _ _ Z) in E; discriminate|]. rewrite (divE_ok _ _ NZ) in E. injection E as <-. split; [exact NZ|field; exact NZ]. }
  apply DI in E1, E2, E3, E4, E5. clear DI. destruct E1 as [N1 E1], E2 as [N2 E2], E3 as [N3 E3], E4 as [N4 E4], E5 as [N5 E5].
  change (b5_den b1 d5 b2 b3 b4 d1 d2 d3 d4) with d5 in *.
  replace (b5_num b1 d5 b2 b3 b4 d1 d2 d3 d4) with (- (b1 * d1 + qbd)) in * by (unfold b5_num, qbd, Qbd; ring).
  replace (a5_den b5 a2 a3 a4 b2 b3 b4 c1 c2 c3 c4 d1 d2 d3 d4) with be in * by (unfold a5_den, be, Qbe, Qbd, Qbc; ring).
  replace (a5_num b5 a2 a3 a4 b2 b3 b4 c1 c2 c3 c4 d1 d2 d3 d4) with (b5 * al) in * by (unfold a5_num, al, Qal, Qad, Qac; ring).
  (* the two linear equations for |1> *)
  assert (EB : X * be + u0 * qdet = b1 * (u0 * al + u1 * be)) by (transitivity (- (- (X * be + u0 * qdet))); [ring|rewrite E1; ring]).
  assert (DET : a1 * be = b1 * al - qdet).
  { apply (mul_cancel (d1 * (ud_ * qbd + uc_ * qbc)) _ _ N2).
    assert (S1 : d1 * (ud_ * qbd + uc_ * qbc) = u0 * qbd - uc_ * be) by (rewrite US, QB; ring).
    transitivity (be * (a1 * (d1 * (ud_ * qbd + uc_ * qbc)))); [ring|]. rewrite <- E2, S1.
    transitivity (qbd * (X * be + u0 * qdet) - qbd * u0 * qdet - u1 * qbd * b1 * be + be * uc_ * (qdet - b1 * al)); [ring|]. rewrite EB. ring. }
  assert (TR : a1 * u0 + b1 * u1 = X).
  { apply (mul_cancel be _ _ N5). transitivity (u0 * (a1 * be) + b1 * u1 * be); [ring|]. rewrite DET.
    transitivity (b1 * (u0 * al + u1 * be) - u0 * qdet); [ring|]. rewrite <- EB. ring. }
  (* P5 = - (P1 + ... + P4) *)
  assert (F11 : b5 * d5 = - (b1 * d1 + qbd)) by (symmetry; exact E4).
  assert (F01 : a5 * d5 = - (a1 * d1 + qad)).
  { apply (mul_cancel be _ _ N5). transitivity (d5 * (a5 * be)); [ring|]. rewrite <- E5. transitivity (al * (b5 * d5)); [ring|]. rewrite F11.
    transitivity (- (d1 * (a1 * be)) - be * qad); [|ring]. rewrite DET, QD, QA, QB. ring. }
  set (N := c1 * X + u0 * qac + u1 * qbc) in *. set (D := d1 * X + u0 * qad + u1 * qbd) in *.
  assert (E3' : d5 * N = c5 * D).
  { apply (mul_cancel (2 * 2)); [apply mul_nz; apply f2_nz|]. transitivity (d5 * (2 * 2 * N)); [ring|]. rewrite E3. ring. }
  assert (ND : D <> 0) by (intros Z; apply N3; rewrite Z; ring).
  set (W := u0 * al + u1 * be) in *. assert (NW : W <> 0) by (intros Z; apply N1; rewrite Z; ring).
  assert (P10 : (b1 * c1 + qbc) * W = be * N).
  { transitivity (c1 * (b1 * W) + qbc * W); [ring|]. rewrite <- EB. unfold W, N. rewrite QD, QA, QB. ring. }
  assert (P11 : (b1 * d1 + qbd) * W = be * D).
  { transitivity (d1 * (b1 * W) + qbd * W); [ring|]. rewrite <- EB. unfold W, D. rewrite QD, QA, QB. ring. }
  assert (F10 : b5 * c5 = - (b1 * c1 + qbc)).
  { apply (mul_cancel (D * W)); [apply mul_nz; auto|]. transitivity (b5 * W * (c5 * D)); [ring|]. rewrite <- E3'. transitivity (W * N * (b5 * d5)); [ring|]. rewrite F11.
    transitivity (- (N * ((b1 * d1 + qbd) * W))); [ring|]. rewrite P11. transitivity (- (D * (be * N))); [ring|]. rewrite <- P10. ring. }
  assert (F00 : a5 * c5 = - (a1 * c1 + qac)).
  { apply (mul_cancel be _ _ N5). transitivity (c5 * (a5 * be)); [ring|]. rewrite <- E5. transitivity (al * (b5 * c5)); [ring|]. rewrite F10.
    transitivity (- (c1 * (a1 * be)) - be * qac); [|ring]. rewrite DET, QD, QA, QB. ring. }
  subst r1 r5. split.
  - unfold qac, qad, qbc, qbd, Qac, Qad, Qbc, Qbd in F00, F01, F10, F11. unfold raise_r; unfold_vec. cbn [e0 e1]. apply m2_ext; cbn [m00 m01 m10 m11].
    + transitivity (d1 * b1 + d2 * b2 + d3 * b3 + d4 * b4 + b5 * d5); [ring|]. rewrite F11. ring.
    + transitivity (- (d1 * a1 + d2 * a2 + d3 * a3 + d4 * a4 + a5 * d5)); [ring|]. rewrite F01. ring.
    + transitivity (- (c1 * b1 + c2 * b2 + c3 * b3 + c4 * b4 + b5 * c5)); [ring|]. rewrite F10. ring.
    + transitivity (c1 * a1 + c2 * a2 + c3 * a3 + c4 * a4 + a5 * c5); [ring|]. rewrite F00. ring.
  - rewrite <- TR. exact (TL a1 b1).
Qed.
Lemma five_err (l1 r2 l2 r3 l3 r4 l4 : v2 K) (d5 X : K) e : tr5_five l1 r2 l2 r3 l3 r4 l4 d5 X = Err e -> e = ZeroDivisionError.
Proof.
  assert (DI : forall (x y : K), divE x y = Err ZeroDivisionError \/ exists z, divE x y = Ok z).
  { intros x y. destruct (feq_dec y) as [Z|NZ]; [left; apply divE_0, Z|right; eexists; apply divE_ok, NZ]. }
  unfold tr5_five.
  repeat match goal with |- context [divE ?x ?y] => destruct (DI x y) as [->|[? ->]]; cbn [rbind]; [congruence|] end. discriminate.
Qed.

Definition coef (k : Z) (i : Z) : Z := if Z.eqb k 5 then (-1)%Z else if Z.eqb k i then 1%Z else 0%Z.
Definition zdet3 (y1 y2 y3 z1 z2 z3 w1 w2 w3 : Z) : Z := (y1 * (z2 * w3 - z3 * w2) - y2 * (z1 * w3 - z3 * w1) + y3 * (z1 * w2 - z2 * w1))%Z.
Definition zdet4 (x0 x1 x2 x3 y0 y1 y2 y3 z0 z1 z2 z3 w0 w1 w2 w3 : Z) : Z :=
  (x0 * zdet3 y1 y2 y3 z1 z2 z3 w1 w2 w3 - x1 * zdet3 y0 y2 y3 z0 z2 z3 w0 w2 w3 + x2 * zdet3 y0 y1 y3 z0 z1 z3 w0 w1 w3 - x3 * zdet3 y0 y1 y2 z0 z1 z2 w0 w1 w2)%Z.
Definition zd (a b c d : Z) : Z := zdet4 (coef a 1) (coef a 2) (coef a 3) (coef a 4) (coef b 1) (coef b 2) (coef b 3) (coef b 4)
  (coef c 1) (coef c 2) (coef c 3) (coef c 4) (coef d 1) (coef d 2) (coef d 3) (coef d 4).
Lemma zd_all : forallb (fun a => forallb (fun b => forallb (fun c => forallb (fun d => Z.eqb (zd a b c d) (sign5 a b c d)) (upto 5)) (upto 5)) (upto 5)) (upto 5) = true.
Proof. vm_compute. reflexivity. Qed.
Lemma zd_sign (a b c d : Z) : In a (upto 5) -> In b (upto 5) -> In c (upto 5) -> In d (upto 5) -> zd a b c d = sign5 a b c d.
Proof.
  intros Ha Hb Hc Hd. pose proof zd_all as H. rewrite forallb_forall in H. specialize (H a Ha). rewrite forallb_forall in H. specialize (H b Hb).
  rewrite forallb_forall in H. specialize (H c Hc). rewrite forallb_forall in H. specialize (H d Hd). apply Z.eqb_eq, H.
Qed.
Lemma T5_signs (P : Z -> m2 K) (a b c d : Z) : madd (P 1%Z) (madd (P 2%Z) (madd (P 3%Z) (madd (P 4%Z) (madd (P 5%Z) mzero)))) = mzero ->
  In a (upto 5) -> In b (upto 5) -> In c (upto 5) -> In d (upto 5) ->
  T5 (P a) (P b) (P c) (P d) = zf (sign5 a b c d) * T5 (P 1%Z) (P 2%Z) (P 3%Z) (P 4%Z).
Proof.
  intros T Ha Hb Hc Hd.
  assert (L : forall k, In k (upto 5) -> P k = lc (P 1%Z) (P 2%Z) (P 3%Z) (P 4%Z) (zf (coef k 1)) (zf (coef k 2)) (zf (coef k 3)) (zf (coef k 4))).
  { intros k Hk. change (In k [1; 2; 3; 4; 5]%Z) in Hk. assert (Z1 : (zf (-1) : K) = - (1)) by (cbn; ring).
    destruct Hk as [<-|[<-|[<-|[<-|[<-|[]]]]]]; cbn [coef Z.eqb Pos.eqb]; unfold coef; cbn [Z.eqb Pos.eqb]; rewrite ?Z1, ?zf_0, ?zf_1;
      try (unfold lc; unfold_vec; apply m2_ext; cbn [m00 m01 m10 m11]; ring).
    pose proof (f_equal m00 T) as T0. pose proof (f_equal m01 T) as T1'. pose proof (f_equal m10 T) as T2. pose proof (f_equal m11 T) as T3.
    revert T0 T1' T2 T3. generalize (P 1%Z) (P 2%Z) (P 3%Z) (P 4%Z) (P 5%Z). intros p1 p2 p3 p4 p5. unfold lc; unfold_vec. cbn [m00 m01 m10 m11]. intros T0 T1' T2 T3.
    apply m2_ext; cbn [m00 m01 m10 m11].
    - transitivity (m00 p1 + (m00 p2 + (m00 p3 + (m00 p4 + (m00 p5 + 0)))) - (m00 p1 + m00 p2 + m00 p3 + m00 p4)); [ring|]. rewrite T0. ring.
    - transitivity (m01 p1 + (m01 p2 + (m01 p3 + (m01 p4 + (m01 p5 + 0)))) - (m01 p1 + m01 p2 + m01 p3 + m01 p4)); [ring|]. rewrite T1'. ring.
    - transitivity (m10 p1 + (m10 p2 + (m10 p3 + (m10 p4 + (m10 p5 + 0)))) - (m10 p1 + m10 p2 + m10 p3 + m10 p4)); [ring|]. rewrite T2. ring.
    - transitivity (m11 p1 + (m11 p2 + (m11 p3 + (m11 p4 + (m11 p5 + 0)))) - (m11 p1 + m11 p2 + m11 p3 + m11 p4)); [ring|]. rewrite T3. ring. }
  rewrite (L a Ha), (L b Hb), (L c Hc), (L d Hd) at 1. rewrite T5_lc. f_equal.
  rewrite <- (zd_sign a b c d Ha Hb Hc Hd). unfold zd, zdet4, zdet3, det4, det3.
  repeat first [rewrite zf_add | rewrite zf_sub | rewrite zf_mul]. reflexivity.
Qed.
Lemma pair_upd (f : Z -> v2 K) k : forall j, upd f k (f k) j = f j.
Proof. intros j. unfold upd. destruct (Z.eqb_spec j k) as [->|]; reflexivity. Qed.
Lemma set_five_view (s : ps K) r l X : view s r l -> length s = 5%nat ->
  snd (set_tr5_five X s) = Err ZeroDivisionError \/
  exists s' r' l', set_tr5_five X s = (s', Ok tt) /\ view s' r' l' /\ step s s' [1; 2; 3; 4; 5]%Z /\
    madd (pm r' l' 1) (madd (pm r' l' 2) (madd (pm r' l' 3) (madd (pm r' l' 4) (madd (pm r' l' 5) mzero)))) = mzero /\
    T5 (pm r' l' 1) (pm r' l' 2) (pm r' l' 3) (pm r' l' 4) = X /\ (forall k, k <> 1%Z -> k <> 5%Z -> r' k = r k) /\ (forall k, k <> 5%Z -> l' k = l k) /\ e1 (l' 5%Z) = e1 (l 5%Z).
Proof.
  intros V L5.
  assert (I : forall s1 : ps K, length s1 = length s -> forall k, (1 <= k <= 5)%Z -> inr s1 k) by (intros s1 L k Hk; unfold inr; rewrite L, L5; cbn; lia).
  unfold set_tr5_five.
  rewrite (spinors_view s r l 1 _ V), (spinors_view s r l 2 _ V), (spinors_view s r l 3 _ V), (spinors_view s r l 4 _ V), (spinors_view s r l 5 _ V) by (apply I; auto; lia).
  cbn [fst snd]. destruct (tr5_five _ _ _ _ _ _ _ _ _) as [[[r1 r5] c5]|e] eqn:E.
  2:{ left. pose proof (five_err _ _ _ _ _ _ _ _ _ _ E) as ->. reflexivity. }
  right. rewrite (bind_lift _ _ _ _ eq_refl).
  destruct (solve_five _ _ _ _ _ _ _ _ _ _ _ _ E) as [TM VA].
  assert (ST : forall (s0 : ps K) r0 l0, view s0 r0 l0 -> length s0 = length s -> forall k v, (1 <= k <= 5)%Z -> exists s1, on k (assign_r_sp_d v) s0 = (s1, Ok tt) /\ view s1 (upd r0 k v) l0 /\ step s0 s1 [k] /\ length s1 = length s).
  { intros s0 r0 l0 V0 L0 k v Hk. destruct (on_rd s0 r0 l0 k v V0 (I s0 L0 k Hk)) as (s1 & E1 & V1 & T1). exact (ex_intro _ s1 (conj E1 (conj V1 (conj T1 (eq_trans (proj1 T1) L0))))). }
  assert (SL : forall (s0 : ps K) r0 l0, view s0 r0 l0 -> length s0 = length s -> forall k v, (1 <= k <= 5)%Z -> exists s1, on k (assign_l_sp_d v) s0 = (s1, Ok tt) /\ view s1 r0 (upd l0 k v) /\ step s0 s1 [k] /\ length s1 = length s).
  { intros s0 r0 l0 V0 L0 k v Hk. destruct (on_ld s0 r0 l0 k v V0 (I s0 L0 k Hk)) as (s1 & E1 & V1 & T1). exact (ex_intro _ s1 (conj E1 (conj V1 (conj T1 (eq_trans (proj1 T1) L0))))). }
  destruct (ST s r l V eq_refl 1%Z r1) as (s1 & E1 & V1 & T1 & L1); [lia|]. rewrite (bind_ok _ _ _ _ _ E1).
  destruct (SL s1 _ _ V1 L1 1%Z (l 1%Z)) as (s2 & E2 & V2' & T2 & L2); [lia|]. rewrite (bind_ok _ _ _ _ _ E2).
  destruct (ST s2 _ _ V2' L2 2%Z (r 2%Z)) as (s3 & E3 & V3 & T3 & L3); [lia|]. rewrite (bind_ok _ _ _ _ _ E3).
  destruct (SL s3 _ _ V3 L3 2%Z (l 2%Z)) as (s4 & E4 & V4 & T4 & L4); [lia|]. rewrite (bind_ok _ _ _ _ _ E4).
  destruct (ST s4 _ _ V4 L4 3%Z (r 3%Z)) as (s5 & E5 & V5 & T5' & L5'); [lia|]. rewrite (bind_ok _ _ _ _ _ E5).
  destruct (SL s5 _ _ V5 L5' 3%Z (l 3%Z)) as (s6 & E6 & V6 & T6 & L6); [lia|]. rewrite (bind_ok _ _ _ _ _ E6).
  destruct (ST s6 _ _ V6 L6 4%Z (r 4%Z)) as (s7 & E7 & V7 & T7 & L7); [lia|]. rewrite (bind_ok _ _ _ _ _ E7).
  destruct (SL s7 _ _ V7 L7 4%Z (l 4%Z)) as (s8 & E8 & V8 & T8 & L8); [lia|]. rewrite (bind_ok _ _ _ _ _ E8).
  destruct (ST s8 _ _ V8 L8 5%Z r5) as (s9 & E9 & V9 & T9 & L9); [lia|]. rewrite (bind_ok _ _ _ _ _ E9).
  destruct (SL s9 _ _ V9 L9 5%Z (V2 c5 (e1 (l 5%Z)))) as (s10 & E10 & V10 & T10 & L10); [lia|].
  exists s10. eexists. eexists. split; [exact E10|]. split; [exact V10|]. split.
  { apply (step_incl _ _ ([1] ++ [1] ++ [2] ++ [2] ++ [3] ++ [3] ++ [4] ++ [4] ++ [5] ++ [5])%Z).
    - intros k Hk. cbn in *. tauto.
    - repeat (eapply step_trans; [eassumption|]). exact T10. }
  split; [exact TM|]. split; [exact VA|]. split; [|split; [|reflexivity]].
  - intros k N1 N5. unfold upd. destruct (Z.eqb_spec k 5); [contradiction|]. destruct (Z.eqb_spec k 4) as [->|]; [reflexivity|]. destruct (Z.eqb_spec k 3) as [->|]; [reflexivity|].
    destruct (Z.eqb_spec k 2) as [->|]; [reflexivity|]. destruct (Z.eqb_spec k 1); [contradiction|reflexivity].
  - intros k N5. unfold upd. destruct (Z.eqb_spec k 5); [contradiction|]. destruct (Z.eqb_spec k 4) as [->|]; [reflexivity|]. destruct (Z.eqb_spec k 3) as [->|]; [reflexivity|].
    destruct (Z.eqb_spec k 2) as [->|]; [reflexivity|]. destruct (Z.eqb_spec k 1) as [->|]; reflexivity.
Qed.
Theorem set_tr5_five_thm cv so (s : ps K) (a b c d : Z) X mode : set_like so -> Forall (fun p => fresh p) s -> length s = 5%nat ->
  legs_of s [a; b; c; d] ->
  let t := TInv (ITr5 (leg a) (leg b) (leg c) (leg d)) in
  snd (set_ cv so t X true mode s) = Err ZeroDivisionError \/
  exists s', made s s' t (zf (sign5 a b c d) * X) [1; 2; 3; 4; 5]%Z /\
    Forall (fun k => keeps_l s s' k) [1; 2; 3; 4]%Z /\ Forall (fun k => keeps_r s s' k) [2; 3; 4]%Z /\
    (zf (sign5 a b c d) * X = X -> set_ cv so t X true mode s = (s', Ok tt)) /\
    (zf (sign5 a b c d) * X <> X -> set_ cv so t X true mode s = (s', Err MyException)).
Proof.
  intros SO FR L5 Hl t. pose proof (view_of s FR) as V. set (r := rs s) in *. set (l := ls s) in *.
  assert (R5 : forall k, In k [a; b; c; d] -> (1 <= k <= 5)%Z) by (intros k Hk; apply Hl in Hk; rewrite L5 in Hk; exact Hk).
  assert (Ra := R5 a ltac:(cbn; auto)). assert (Rb := R5 b ltac:(cbn; auto)). assert (Rc := R5 c ltac:(cbn; auto)). assert (Rd := R5 d ltac:(cbn; auto)).
  assert (EQ : set_inner cv so t X true mode s = set_tr5_five X s).
  { unfold t. cbn [set_inner]. unfold set_tr5. cbn [tr5_rotate]. rewrite one_char_leg by lia. rewrite (bind_lift _ _ _ _ eq_refl), bind_get.
    rewrite (bind_lift _ _ _ _ (complementary_free so (length s) [a; b; c; d] SO ltac:(discriminate))). rewrite L5. reflexivity. }
  destruct (set_five_view s r l X V L5) as [Er|(s' & r' & l' & Es & V' & T & TM & VA & Kr & Kl & _)].
  - left. apply snd_set_err. rewrite EQ. exact Er.
  - right. exists s'. assert (L : length s' = length s) by apply T.
    assert (TM' : total_mom s' = mzero).
    { assert (M : mom_sum false s' (upto 5) = Ok (total_mom s')) by (apply mom_sum_all; [intros ->; rewrite L5 in L; discriminate|rewrite L, L5; apply Permutation_refl]).
      rewrite (mom_sum_view s' r' l' (upto 5) V') in M; [|intros k Hk; rewrite L, L5; apply upto_In, Hk|discriminate].
      assert (M' : total_mom s' = psum r' l' (upto 5)) by congruence. rewrite M'. exact TM. }
    assert (VAL : c_target s' t = Ok (zf (sign5 a b c d) * X)).
    { unfold c_target, t, compute.
      assert (G : forall k, (1 <= k <= 5)%Z -> exists p, getitem s' k = Ok p /\ reproduces p /\ r2 p = pm r' l' k).
      { intros k Hk. assert (Hi : inr s' k) by (unfold inr; rewrite L, L5; cbn; lia).
        destruct (view_get s' r' l' k V' Hi) as (p & G & FRp & _). pose proof (proj1 (proj2 FRp)) as R. exists p. split; [exact G|]. split; [exact R|].
        pose proof (mom_view s' r' l' k V' Hi) as MV. unfold mom in MV. rewrite G in MV. cbn in MV. congruence. }
      destruct (G a Ra) as (pa & Ga & Pa & Ea). destruct (G b Rb) as (pb & Gb & Pb & Eb). destruct (G c Rc) as (pc & Gc & Pc & Ec). destruct (G d Rd) as (pd & Gd & Pd & Ed).
      rewrite (tr5_first_value s' a pa (leg b) (leg c) (leg d) (r2 pb) (r2 pc) (r2 pd)); auto using leg_val, (view_sound s' r' l' V'); try lia.
      cbn [rmap scalar]. f_equal. rewrite Ea, Eb, Ec, Ed. rewrite (T5_signs (pm r' l') a b c d TM), VA; try (apply (proj2 (upto_In 5 _)); cbn; lia). reflexivity. }
    split; [apply (step_made _ _ _ _ _ _ _ VAL TM' V' T)|].
    split. { repeat constructor; apply (view_keeps_l s s' r l r' l' _ V V'); apply Kl; discriminate. }
    split. { repeat constructor; apply (view_keeps_r s s' r l r' l' _ V V'); apply Kr; discriminate. }
    split.
    + intros EX. apply set_returns; [rewrite EQ; exact Es|rewrite VAL, EX; reflexivity|exact TM'|apply (view_fresh _ _ _ V')].
    + intros NX. destruct (checks_ok s' TM' (view_fresh _ _ _ V')) as [C1 C2]. unfold set_, set_checked.
      assert (Es' : set_inner cv so t X true mode s = (s', Ok tt)) by (rewrite EQ; exact Es). rewrite (bind_ok _ _ _ _ _ Es'), bind_get, (bind_lift _ _ _ _ VAL). rewrite C1, C2. cbn [negb].
      rewrite (bind_ok _ _ _ s' tt) by reflexivity.
      replace (feqb (zf (sign5 a b c d) * X) X) with false; [reflexivity|]. symmetry. apply not_true_is_false. intros H. apply feqb_ok in H. auto.
Qed.
End Five.
