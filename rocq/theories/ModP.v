(* Reduction of rationals modulo a prime, the map Field("finite field", p, 1) applies
   to a rational number (ModP of pyadic: numerator times inverse of denominator). *)
From Coq Require Import List ZArith Bool Lia Ring Field Znumtheory QArith Qcanon.
From Verif Require Import Base Fld Particle ParticleSpec Index Phase Compute ComputeSpec ToField ToFieldThm FldInst.
Import ListNotations.

Section ModP.
Variable p : Z.
Variable p_prime : prime p.
Variable p_odd : p <> 2%Z.
Let F := GFF p p_prime p_odd.

(* field(x) of tests such as ps.to_field(Field("finite field", p, 1)), particle.py:54-58;
   a denominator divisible by p raises ZeroDivisionError *)
Definition reduce (x : QF) : result F :=
  let n := Qnum (this x) in let d := QDen (this x) in
  if (d mod p =? 0)%Z then Err ZeroDivisionError
  else Ok (gdiv p p_prime p_odd (gmk p p_prime p_odd n) (gmk p p_prime p_odd d)).

Lemma Q2Qc_add a b : (Q2Qc a + Q2Qc b)%Qc = Q2Qc (a + b).
Proof. apply Q2Qc_eq_iff. change ((Qred a + Qred b == a + b)%Q). rewrite !Qred_correct. reflexivity. Qed.
Lemma zfQ n : (zf n : QF) = Q2Qc (inject_Z n).
Proof.
  revert n. apply Z.peano_ind; [reflexivity| |]; intros n IH.
  - unfold Z.succ. rewrite zf_add, IH, zf_1. rewrite inject_Z_plus. apply Q2Qc_add.
  - unfold Z.pred. rewrite zf_add, IH. rewrite inject_Z_plus. apply Q2Qc_add.
Qed.
Lemma zfP n : (zf n : F) = gmk p p_prime p_odd n.
Proof.
  pose proof (p_pos p p_prime p_odd).
  revert n. apply Z.peano_ind; [reflexivity| |]; intros n IH.
  - unfold Z.succ. rewrite zf_add, IH, zf_1. apply gf_ext. cbn. rewrite <- Z.add_mod by lia. reflexivity.
  - unfold Z.pred. rewrite zf_add, IH. apply gf_ext. cbn. rewrite Zplus_mod_idemp_l, Zplus_mod_idemp_r by lia. rewrite Z.mod_1_l by lia. reflexivity.
Qed.
Lemma gmk_nz n : gmk p p_prime p_odd n <> gmk p p_prime p_odd 0 <-> (n mod p <> 0)%Z.
Proof.
  split; intros H E; apply H.
  - apply gf_ext. cbn [gval gmk]. rewrite E. symmetry. apply Z.mod_0_l. pose proof (p_pos p p_prime p_odd). lia.
  - apply (f_equal (gval p)) in E. cbn [gval gmk] in E. rewrite E. apply Z.mod_0_l. pose proof (p_pos p p_prime p_odd). lia.
Qed.
Lemma zfQ_nz n : n <> 0%Z -> (zf n : QF) <> 0%fld.
Proof.
  intros H E. rewrite zfQ in E. change (0%fld : QF) with (Q2Qc 0) in E. apply Q2Qc_eq_iff in E. apply H. unfold Qeq in E. cbn in E. lia.
Qed.
Lemma Qc_mul_den (x : Qc) : (x * Q2Qc (inject_Z (QDen (this x))))%Qc = Q2Qc (inject_Z (Qnum (this x))).
Proof.
  apply Q2Qc_eq_iff. change ((this x * Qred (inject_Z (QDen (this x))) == inject_Z (Qnum (this x)))%Q). rewrite !Qred_correct.
  destruct x as [[n d] C]. unfold Qeq. cbn. lia.
Qed.
Lemma reduce_frac x y : reduce x = Ok y -> frac_rel QF F x y.
Proof.
  unfold reduce. destruct (Z.eqb_spec (QDen (this x) mod p) 0) as [|N]; [discriminate|]. intros [= <-].
  assert (N' : gmk p p_prime p_odd (QDen (this x)) <> gmk p p_prime p_odd 0) by (apply gmk_nz, N).
  exists (Qnum (this x)), (QDen (this x)). split; [apply zfQ_nz; lia|]. rewrite !zfP. split; [exact N'|]. split.
  - rewrite !zfQ. apply Qc_mul_den.
  - set (a := gmk p p_prime p_odd (Qnum (this x))). set (b := gmk p p_prime p_odd (QDen (this x))) in *.
    change (@fmul F (@fdiv F a b) b = a). pose proof (fth F) as FT.
    assert (E := Fdiv_def FT a b). rewrite E. rewrite <- (Rmul_assoc (F_R FT)). rewrite (Finv_l FT b N').
    rewrite (Rmul_comm (F_R FT)). apply (Rmul_1_l (F_R FT)).
Qed.
Lemma frac_reduce x y : frac_rel QF F x y -> reduce x = Ok y.
Proof.
  intros Fr. pose proof Fr as (n & d & N & N' & E & _). rewrite zfP in N'. apply gmk_nz in N'.
  rewrite !zfQ in E.
  assert (E' : (Qnum (this x) * d = n * QDen (this x))%Z).
  { apply (f_equal this) in E. change (Qred (this x * Qred (inject_Z d)) = Qred (inject_Z n)) in E.
    assert (Q : (this x * inject_Z d == inject_Z n)%Q).
    { rewrite <- (Qred_correct (inject_Z n)), <- E, Qred_correct, Qred_correct. reflexivity. }
    unfold Qeq in Q. cbn in Q. rewrite Z.mul_1_r, Pos.mul_1_r in Q. exact Q. }
  assert (Gc : Z.gcd (Qnum (this x)) (QDen (this x)) = 1%Z).
  { apply Qred_identity2. apply (Qcanon.canon x). }
  assert (D : (QDen (this x) | d)%Z).
  { apply (Gauss _ (Qnum (this x))); [exists n; exact E'|]. apply rel_prime_sym. apply Zgcd_1_rel_prime. exact Gc. }
  assert (M : (QDen (this x) mod p <> 0)%Z).
  { intros H. apply N'. pose proof (p_pos p p_prime p_odd). apply Z.mod_divide in H; [|lia]. apply Z.mod_divide; [lia|].
    apply (Z.divide_trans _ _ _ H D). }
  assert (exists y', reduce x = Ok y') as (y' & R).
  { unfold reduce. destruct (Z.eqb_spec (QDen (this x) mod p) 0); [contradiction|]. eexists; reflexivity. }
  rewrite R. f_equal. apply (frac_rel_fun QF F) with (x := x); [|apply reduce_frac, R|exact Fr].
  intros m Hm. destruct (Z.eq_dec m 0) as [->|Nm]; [reflexivity|]. exfalso. apply (zfQ_nz m Nm Hm).
Qed.
Lemma reduce_compute (s : ps QF) (s' : ps F) (e : inv) : sound s -> Forall (fun q => reproduces q) s -> ps_to_field reduce s = Ok s' ->
  forall x, scalar (compute s e) = Ok x -> exists y, reduce x = Ok y /\ scalar (compute s' e) = Ok y.
Proof.
  intros S R H x Hx. pose proof (to_field_compute _ (frac_rel_ring QF F) reduce reduce_frac s s' e S R H) as C.
  destruct (compute s e) as [[v|v|v|v]|]; try discriminate. cbn in Hx. inversion Hx; subst v.
  destruct (compute s' e) as [[w|w|w|w]|]; try contradiction. cbn in C. exists w. split; [apply frac_reduce, C|reflexivity].
Qed.
End ModP.
