(* Three concrete fields: the rationals, GF(p) for a prime p, and the Gaussian
   rationals.  They make the Examples and the refutation witnesses computable;
   the theorems themselves quantify over every [Fld]. *)
From Coq Require Import List ZArith Bool Lia Ring Field Eqdep_dec Znumtheory QArith Qcanon.
From Verif Require Import Base Fld.
Import ListNotations.

(* ---------- rationals: syngular Field("rational", 0, 0) ----------; for the instance of Fld: rational numbers, particle.py:40-41 *)
Definition Qc_eqb (x y : Qc) : bool := Qeq_bool (this x) (this y).
Lemma Qc_eqb_ok x y : Qc_eqb x y = true <-> x = y.
Proof.
  unfold Qc_eqb. split.
  - intros H. apply Qc_is_canon. apply Qeq_bool_iff. exact H.
  - intros ->. apply Qeq_bool_iff. reflexivity.
Qed.
(* square root of a perfect square; anything else raises ValueError; for the instance of Fld: rational numbers, particle.py:40-41 *)
Definition Qc_sqrt (x : Qc) : option Qc :=
  let y := Q2Qc (Z.sqrt (Qnum (this x)) # Pos.sqrt (Qden (this x))) in
  if Qc_eqb (y * y)%Qc x then Some y else None.
Lemma Qc_sqrt_ok x y : Qc_sqrt x = Some y -> (y * y)%Qc = x.
Proof.
  unfold Qc_sqrt. destruct (Qc_eqb _ x) eqn:E; [|discriminate].
  intros H; inversion H; subst. apply Qc_eqb_ok; exact E.
Qed.
Lemma Qc2_nz : (1 + 1)%Qc <> 0%Qc.
Proof. intros H. apply (f_equal this) in H. vm_compute in H. discriminate. Qed.

Definition QF : Fld := mkFld Qc 0%Qc 1%Qc Qcplus Qcmult Qcminus Qcopp Qcdiv Qcinv Qcft
  Qc_eqb Qc_eqb_ok Qc2_nz Qc_sqrt Qc_sqrt_ok None (fun i H => ltac:(discriminate)).

(* ---------- GF(p): syngular Field("finite field", p, 1) ---------- *)

Section GFp.
Variable p : Z.
Hypothesis p_prime : prime p.
Hypothesis p_odd : p <> 2%Z.
Open Scope Z_scope.

(* for the instance of Fld: numbers modulo p, Field('finite field', p, 1) of syngular, particle.py:40-41 *)
Definition inrange (v : Z) : bool := (0 <=? v) && (v <? p).
(* for the instance of Fld: numbers modulo p, Field('finite field', p, 1) of syngular, particle.py:40-41 *)
Record gf : Type := GF { gval : Z; gok : inrange gval = true }.

Lemma p_pos : 2 < p.
Proof. destruct p_prime. lia. Qed.
Lemma mod_inrange z : inrange (z mod p) = true.
Proof.
  unfold inrange. pose proof p_pos. pose proof (Z.mod_pos_bound z p ltac:(lia)).
  apply andb_true_iff; split; [apply Z.leb_le | apply Z.ltb_lt]; lia.
Qed.
(* a canonicity proof that computes to eq_refl; for the instance of Fld: numbers modulo p, Field('finite field', p, 1) of syngular, particle.py:40-41 *)
Definition canon (v : Z) : inrange v = true -> inrange v = true :=
  match inrange v as b return b = true -> b = true with
  | true => fun _ => eq_refl
  | false => fun h => h
  end.
(* for the instance of Fld: numbers modulo p, Field('finite field', p, 1) of syngular, particle.py:40-41 *)
Definition gmk (z : Z) : gf := GF (z mod p) (canon _ (mod_inrange z)).
Lemma gf_ext x y : gval x = gval y -> x = y.
Proof.
  destruct x as [a Ha], y as [b Hb]; cbn; intros ->.
  f_equal. apply UIP_dec, bool_dec.
Qed.
Lemma gval_mod x : gval x mod p = gval x.
Proof.
  destruct x as [a Ha]; cbn. unfold inrange in Ha. apply andb_true_iff in Ha as [H1 H2].
  apply Z.leb_le in H1. apply Z.ltb_lt in H2. apply Z.mod_small; lia.
Qed.

(* for the instance of Fld: numbers modulo p, Field('finite field', p, 1) of syngular, particle.py:40-41 *)
Definition gadd x y := gmk (gval x + gval y).
(* for the instance of Fld: numbers modulo p, Field('finite field', p, 1) of syngular, particle.py:40-41 *)
Definition gmul x y := gmk (gval x * gval y).
(* for the instance of Fld: numbers modulo p, Field('finite field', p, 1) of syngular, particle.py:40-41 *)
Definition gopp x := gmk (- gval x).
(* for the instance of Fld: numbers modulo p, Field('finite field', p, 1) of syngular, particle.py:40-41 *)
Definition gsub x y := gmk (gval x - gval y).
(* for the instance of Fld: numbers modulo p, Field('finite field', p, 1) of syngular, particle.py:40-41 *)
Definition zrange : list Z := map Z.of_nat (seq 0 (Z.to_nat p)).
(* for the instance of Fld: numbers modulo p, Field('finite field', p, 1) of syngular, particle.py:40-41 *)
Definition ginv x := match find (fun y => (gval x * y) mod p =? 1) zrange with
                     | Some y => gmk y | None => gmk 0 end.
(* for the instance of Fld: numbers modulo p, Field('finite field', p, 1) of syngular, particle.py:40-41 *)
Definition gdiv x y := gmul x (ginv y).
(* for the instance of Fld: numbers modulo p, Field('finite field', p, 1) of syngular, particle.py:40-41 *)
Definition geqb x y := gval x =? gval y.
(* for the instance of Fld: numbers modulo p, Field('finite field', p, 1) of syngular, particle.py:40-41 *)
Definition gsqrt x := match find (fun y => (y * y) mod p =? gval x) zrange with
                      | Some y => Some (gmk y) | None => None end.
(* for the instance of Fld: numbers modulo p, Field('finite field', p, 1) of syngular, particle.py:40-41 *)
Definition gimag := match find (fun y => (y * y) mod p =? p - 1) zrange with
                    | Some y => Some (gmk y) | None => None end.

Lemma in_zrange y : 0 <= y < p -> In y zrange.
Proof.
  intros H. unfold zrange. apply in_map_iff. exists (Z.to_nat y). split; [lia|].
  apply in_seq. lia.
Qed.

Lemma ginv_ok x : x <> gmk 0 -> gmul (ginv x) x = gmk 1.
Proof.
  intros Hx. pose proof p_pos as Hp.
  assert (Hd : ~ (p | gval x)).
  { intros [k Hk]. apply Hx. apply gf_ext. cbn. rewrite <- (gval_mod x), Hk, Z.mod_mul by lia. reflexivity. }
  assert (Hr : rel_prime p (gval x)) by (apply prime_rel_prime; auto).
  destruct (rel_prime_bezout _ _ Hr) as [u v Huv].
  assert (E : (gval x * (v mod p)) mod p = 1).
  { rewrite Z.mul_mod_idemp_r by lia.
    replace (gval x * v) with (1 + (- u) * p) by lia.
    rewrite Z.mod_add by lia. apply Z.mod_small; lia. }
  unfold ginv. destruct (find _ zrange) as [y|] eqn:F.
  - apply find_some in F as [_ F]. apply Z.eqb_eq in F.
    apply gf_ext. cbn. rewrite Z.mul_mod_idemp_l by lia.
    rewrite Z.mul_comm, F. symmetry; apply Z.mod_small; lia.
  - exfalso. assert (I : In (v mod p) zrange) by (apply in_zrange, Z.mod_pos_bound; lia).
    pose proof (find_none _ _ F _ I) as N. cbn in N. rewrite E in N. discriminate.
Qed.

Lemma gf_field : field_theory (gmk 0) (gmk 1) gadd gmul gsub gopp gdiv ginv (@eq gf).
Proof.
  pose proof p_pos as Hp.
  assert (M : forall a b, a mod p = b mod p -> gmk a = gmk b).
  { intros a b H. apply gf_ext; exact H. }
  assert (G : forall x, gmk (gval x) = x).
  { intros x. apply gf_ext. cbn. apply gval_mod. }
  constructor.
  - constructor.
    + intros x. rewrite <- (G x) at 2. apply M. cbn. f_equal; lia.
    + intros x y. apply M. f_equal; lia.
    + intros x y z. apply M. cbn. rewrite Z.add_mod_idemp_l, Z.add_mod_idemp_r by lia. f_equal; lia.
    + intros x. rewrite <- (G x) at 2. apply M. cbn. rewrite Z.mul_mod_idemp_l by lia. f_equal; lia.
    + intros x y. apply M. f_equal; lia.
    + intros x y z. apply M. cbn. rewrite Z.mul_mod_idemp_l, Z.mul_mod_idemp_r by lia. f_equal; lia.
    + intros x y z. apply M. cbn. rewrite Z.mul_mod_idemp_l by lia.
      rewrite <- Z.add_mod by lia. f_equal; lia.
    + intros x y. apply M. cbn. rewrite Z.add_mod_idemp_r by lia. f_equal; lia.
    + intros x. apply M. cbn. rewrite Z.add_mod_idemp_r by lia.
      replace (gval x + - gval x) with 0 by lia. reflexivity.
  - intros H. apply (f_equal gval) in H. cbn in H. rewrite Z.mod_1_l in H by lia. discriminate.
  - reflexivity.
  - apply ginv_ok.
Qed.
Lemma geqb_ok x y : geqb x y = true <-> x = y.
Proof.
  unfold geqb. rewrite Z.eqb_eq. split; [apply gf_ext | intros ->; reflexivity].
Qed.
Lemma g2_nz : gadd (gmk 1) (gmk 1) <> gmk 0.
Proof.
  pose proof p_pos. intros H'. apply (f_equal gval) in H'. cbn in H'.
  rewrite (Z.mod_1_l p) in H' by lia. rewrite Z.mod_small in H' by lia. discriminate.
Qed.
Lemma gsqrt_ok x y : gsqrt x = Some y -> gmul y y = x.
Proof.
  pose proof p_pos. unfold gsqrt. destruct (find _ zrange) as [z|] eqn:F; [|discriminate].
  intros E; inversion E; subst. apply find_some in F as [_ F]. apply Z.eqb_eq in F.
  apply gf_ext. cbn. rewrite <- Z.mul_mod by lia. exact F.
Qed.
Lemma gimag_ok i : gimag = Some i -> gmul i i = gopp (gmk 1).
Proof.
  pose proof p_pos. unfold gimag. destruct (find _ zrange) as [z|] eqn:F; [|discriminate].
  intros E; inversion E; subst. apply find_some in F as [_ F]. apply Z.eqb_eq in F.
  apply gf_ext. cbn. rewrite <- Z.mul_mod by lia. rewrite F, Z.mod_1_l by lia.
  replace (-(1)) with (p - 1 + (-1) * p) by lia. rewrite Z.mod_add by lia.
  symmetry; apply Z.mod_small; lia.
Qed.
(* for the instance of Fld: numbers modulo p, Field('finite field', p, 1) of syngular, particle.py:40-41 *)
Definition GFF : Fld := mkFld gf (gmk 0) (gmk 1) gadd gmul gsub gopp gdiv ginv gf_field
  geqb geqb_ok g2_nz gsqrt gsqrt_ok gimag gimag_ok.
End GFp.

(* primality of a literal by trial division; for the instance of Fld: numbers modulo p, Field('finite field', p, 1) of syngular, particle.py:40-41 *)
Definition primeb (p : Z) : bool :=
  ((1 <? p) && forallb (fun n => negb (p mod (Z.of_nat n) =? 0)) (seq 2 (Z.to_nat p - 2)))%Z.
Lemma primeb_ok p : primeb p = true -> prime p.
Proof.
  unfold primeb. rewrite andb_true_iff, forallb_forall, Z.ltb_lt. intros [Hp H].
  apply prime_alt. split; [exact Hp|].
  intros n Hn D. specialize (H (Z.to_nat n)). rewrite in_seq in H.
  specialize (H ltac:(lia)). rewrite Z2Nat.id in H by lia.
  apply Z.mod_divide in D; [|lia]. rewrite D in H. discriminate.
Qed.
(* for the instance of Fld: numbers modulo p, Field('finite field', p, 1) of syngular, particle.py:40-41 *)
Definition GF13 : Fld := GFF 13 (primeb_ok 13 eq_refl) ltac:(discriminate).  (* has i = 5 *)
(* for the instance of Fld: numbers modulo p, Field('finite field', p, 1) of syngular, particle.py:40-41 *)
Definition GF7 : Fld := GFF 7 (primeb_ok 7 eq_refl) ltac:(discriminate).   (* no square root of -1 *)

(* ---------- Gaussian rationals: syngular Field("gaussian rational", 0, 0) ----------; for the instance of Fld: Gaussian rationals, standing for exact complex numbers, particle.py:40-41 *)
Record gauss : Type := GI { gre : Qc; gim : Qc }.
Open Scope Qc_scope.
(* for the instance of Fld: Gaussian rationals, standing for exact complex numbers, particle.py:40-41 *)
Definition gi_add x y := GI (gre x + gre y) (gim x + gim y).
(* for the instance of Fld: Gaussian rationals, standing for exact complex numbers, particle.py:40-41 *)
Definition gi_mul x y := GI (gre x * gre y - gim x * gim y) (gre x * gim y + gim x * gre y).
(* for the instance of Fld: Gaussian rationals, standing for exact complex numbers, particle.py:40-41 *)
Definition gi_sub x y := GI (gre x - gre y) (gim x - gim y).
(* for the instance of Fld: Gaussian rationals, standing for exact complex numbers, particle.py:40-41 *)
Definition gi_opp x := GI (- gre x) (- gim x).
(* for the instance of Fld: Gaussian rationals, standing for exact complex numbers, particle.py:40-41 *)
Definition gi_norm x := gre x * gre x + gim x * gim x.
(* for the instance of Fld: Gaussian rationals, standing for exact complex numbers, particle.py:40-41 *)
Definition gi_inv x := GI (gre x / gi_norm x) (- gim x / gi_norm x).
(* for the instance of Fld: Gaussian rationals, standing for exact complex numbers, particle.py:40-41 *)
Definition gi_div x y := gi_mul x (gi_inv y).
(* for the instance of Fld: Gaussian rationals, standing for exact complex numbers, particle.py:40-41 *)
Definition gi_eqb x y := Qc_eqb (gre x) (gre y) && Qc_eqb (gim x) (gim y).
(* for the instance of Fld: Gaussian rationals, standing for exact complex numbers, particle.py:40-41 *)
Definition gi_sqrt (x : gauss) : option gauss :=
  if Qc_eqb (gim x) 0 then
    match Qc_sqrt (gre x) with
    | Some y => Some (GI y 0)
    | None => match Qc_sqrt (- gre x) with Some y => Some (GI 0 y) | None => None end
    end
  else None.

Lemma gi_ext x y : gre x = gre y -> gim x = gim y -> x = y.
Proof. destruct x, y; cbn; intros; subst; reflexivity. Qed.

Lemma Qc_sq_nonneg (x : Qc) : 0 <= x * x.
Proof.
  unfold Qcle. cbn [this Qcmult Q2Qc].
  assert (E : (Qred 0 == 0)%Q) by apply Qred_correct.
  assert (E2 : (Qred (this x * this x) == this x * this x)%Q) by apply Qred_correct.
  rewrite E2. unfold Qle. cbn. nia.
Qed.
Lemma gi_norm_nz x : x <> GI 0 0 -> gi_norm x <> 0.
Proof.
  intros Hx H. unfold gi_norm in H.
  assert (A : gre x * gre x = 0 /\ gim x * gim x = 0).
  { pose proof (Qc_sq_nonneg (gre x)) as Ha. pose proof (Qc_sq_nonneg (gim x)) as Hb.
    assert (Ea : gre x * gre x <= 0).
    { rewrite <- H. rewrite <- (Qcplus_0_r (gre x * gre x)) at 1.
      apply Qcplus_le_compat; [apply Qcle_refl|exact Hb]. }
    assert (Eb : gim x * gim x <= 0).
    { rewrite <- H. rewrite <- (Qcplus_0_l (gim x * gim x)) at 1.
      apply Qcplus_le_compat; [exact Ha|apply Qcle_refl]. }
    split; apply Qcle_antisym; auto. }
  destruct A as [A B]. apply Hx. apply gi_ext; cbn.
  - destruct (Qcmult_integral _ _ A); auto.
  - destruct (Qcmult_integral _ _ B); auto.
Qed.
Lemma gi_field : field_theory (GI 0 0) (GI 1 0) gi_add gi_mul gi_sub gi_opp gi_div gi_inv (@eq gauss).
Proof.
  constructor.
  - constructor; intros; apply gi_ext; unfold gi_add, gi_mul, gi_sub, gi_opp; cbn; ring.
  - intros H. apply (f_equal gre) in H. cbn in H. discriminate (f_equal this H).
  - reflexivity.
  - intros x Hx. pose proof (gi_norm_nz x Hx) as Hn. unfold gi_norm in Hn.
    apply gi_ext; unfold gi_mul, gi_inv, gi_norm; cbn; field; exact Hn.
Qed.
Lemma gi_eqb_ok x y : gi_eqb x y = true <-> x = y.
Proof.
  unfold gi_eqb. rewrite andb_true_iff, !Qc_eqb_ok. split.
  - intros [A B]; apply gi_ext; auto.
  - intros ->; auto.
Qed.
Lemma gi2_nz : gi_add (GI 1 0) (GI 1 0) <> GI 0 0.
Proof. intros H. apply (f_equal gre) in H. apply Qc2_nz. exact H. Qed.
Lemma gi_sqrt_ok x y : gi_sqrt x = Some y -> gi_mul y y = x.
Proof.
  unfold gi_sqrt. destruct (Qc_eqb (gim x) 0) eqn:E; [|discriminate].
  apply Qc_eqb_ok in E.
  destruct (Qc_sqrt (gre x)) as [a|] eqn:S1.
  - intros H; inversion H; subst. apply Qc_sqrt_ok in S1. apply gi_ext; cbn.
    + rewrite <- S1; ring.
    + rewrite E; ring.
  - destruct (Qc_sqrt (- gre x)) as [a|] eqn:S2; [|discriminate].
    intros H; inversion H; subst. apply Qc_sqrt_ok in S2. apply gi_ext; cbn.
    + replace (0 * 0 - a * a) with (- (a * a)) by ring. rewrite S2; ring.
    + rewrite E; ring.
Qed.
Lemma gi_imag_ok i : Some (GI 0 1) = Some i -> gi_mul i i = gi_opp (GI 1 0).
Proof. intros H; inversion H; subst. apply gi_ext; cbn; ring. Qed.
(* for the instance of Fld: Gaussian rationals, standing for exact complex numbers, particle.py:40-41 *)
Definition GQ : Fld := mkFld gauss (GI 0 0) (GI 1 0) gi_add gi_mul gi_sub gi_opp gi_div gi_inv gi_field
  gi_eqb gi_eqb_ok gi2_nz gi_sqrt gi_sqrt_ok (Some (GI 0 1)) gi_imag_ok.

Close Scope Qc_scope.

(* literals; for examples, numbers of an instance (particle.py:40-41) *)
Definition q (n : Z) (d : positive) : QF := Q2Qc (n # d).
(* for examples, numbers of an instance (particle.py:40-41) *)
Definition qz (n : Z) : QF := Q2Qc (n # 1).
(* for examples, numbers of an instance (particle.py:40-41) *)
Definition g13 (n : Z) : GF13 := gmk 13 (primeb_ok 13 eq_refl) ltac:(discriminate) n.
(* for examples, numbers of an instance (particle.py:40-41) *)
Definition g7 (n : Z) : GF7 := gmk 7 (primeb_ok 7 eq_refl) ltac:(discriminate) n.
(* for examples, numbers of an instance (particle.py:40-41) *)
Definition gq (a b : Z) : GQ := GI (Q2Qc (a # 1)) (Q2Qc (b # 1)).

Example gf13_imag : @fimag GF13 = Some (g13 5).
Proof. reflexivity. Qed.
Example gf7_no_imag : @fimag GF7 = None.
Proof. reflexivity. Qed.

(* Decide closed (in)equalities by computing the boolean test only: normalising a
   proposition would also normalise the field record in its type arguments. *)
Ltac fcomp := first [ apply (proj1 (feqb_ok _ _ _)) | apply (proj1 (meqb_ok _ _)) | apply (proj1 (veqb_ok _ _)) ];
              vm_compute; reflexivity.
Ltac fneq := apply (proj1 (feqb_neq _ _)); vm_compute; reflexivity.
(* for examples, numbers of an instance (particle.py:40-41) *)
Definition is_some {A} (o : option A) : bool := match o with Some _ => true | None => false end.
Lemma is_some_ex {A} (o : option A) : is_some o = true -> exists x, o = Some x.
Proof. destruct o; [eauto|discriminate]. Qed.
Ltac fsome := apply is_some_ex; vm_compute; reflexivity.
Ltac ferr := apply is_err_ok; vm_compute; reflexivity.
Ltac fok := apply get_ok_ok; vm_compute; reflexivity.
Lemma some_feqb {K : Fld} (o : option K) (y : K) :
  match o with Some x => feqb x y | None => false end = true -> o = Some y.
Proof. destruct o; [|discriminate]. intros H. apply feqb_ok in H. congruence. Qed.
Ltac fsomeq := apply some_feqb; vm_compute; reflexivity.
Lemma ok_feqb {K : Fld} (o : result K) (y : K) :
  match o with Ok x => feqb x y | Err _ => false end = true -> o = Ok y.
Proof. destruct o; [|discriminate]. intros H. apply feqb_ok in H. congruence. Qed.
Ltac fokeq := apply ok_feqb; vm_compute; reflexivity.
