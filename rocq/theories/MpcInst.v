(* The Gaussian rationals as an example of the numbers of MpcRandom.v. *)
From Coq Require Import List ZArith Bool Lia QArith Qcanon Ring Field.
From Verif Require Import Base Fld FldInst MpcRandom.
Import ListNotations.
Open Scope Qc_scope.

(* x > 0, for the instance, particle.py:317 *)
Definition Qc_pos (x : Qc) : bool := match x ?= 0 with Gt => true | _ => false end.
Lemma Qc_pos_ok x : Qc_pos x = true <-> 0 < x.
Proof. unfold Qc_pos. rewrite (Qcgt_alt x 0). destruct (x ?= 0); split; congruence. Qed.
(* a real number of the instance, particle.py:317 *)
Definition gi_pos (x : gauss) : bool := Qc_eqb (gim x) 0 && Qc_pos (gre x).
Lemma gi_pos_ok x : gi_pos x = true <-> gim x = 0 /\ 0 < gre x.
Proof. unfold gi_pos. rewrite andb_true_iff, Qc_eqb_ok, Qc_pos_ok. reflexivity. Qed.
Lemma Qc_sqrt_nneg x y : Qc_sqrt x = Some y -> 0 <= y.
Proof.
  unfold Qc_sqrt. destruct (Qc_eqb _ x); [|discriminate]. intros H. injection H as <-. unfold Qcle. cbn [this Q2Qc].
  rewrite !Qred_correct. unfold Qle. cbn. pose proof (Z.sqrt_nonneg (Qnum (this x))). lia.
Qed.
Lemma real_parts a : gim a = 0 <-> GI (gim a) 0 = GI 0 0.
Proof. split; [intros ->; reflexivity|]. intros H. apply (f_equal gre) in H. exact H. Qed.
Lemma nneg_cases (y : Qc) : 0 <= y -> y = 0 \/ 0 < y.
Proof. intros H. destruct (Qclt_le_dec 0 y) as [L | L]; [right; exact L|left; apply Qcle_antisym; auto]. Qed.
(* the numbers, particle.py:310-321 *)
Definition GQX : Cx GQ.
Proof.
  refine (mkCx GQ (GI 0 1) eq_refl (fun x => GI (gre x) 0) (fun x => GI (gim x) 0) _ _ _ _ _ _ _ _ _ gi_pos _ _ _ _ _ _).
  - intros x. apply gi_ext; cbn; ring.
  - intros a b Ha Hb. apply real_parts in Ha, Hb. split; apply gi_ext; cbn; rewrite ?Ha, ?Hb; ring.
  - intros x. apply gi_ext; reflexivity.
  - intros x. apply gi_ext; reflexivity.
  - reflexivity.
  - intros a b Ha Hb. apply real_parts in Ha, Hb. apply gi_ext; cbn; rewrite ?Ha, ?Hb; ring.
  - intros a b Ha Hb. apply real_parts in Ha, Hb. apply gi_ext; cbn; rewrite ?Ha, ?Hb; ring.
  - intros a Ha. apply real_parts in Ha. apply gi_ext; cbn; rewrite ?Ha; ring.
  - intros a Ha. apply real_parts in Ha. apply gi_ext; cbn; rewrite ?Ha; unfold Qcdiv; ring.
  - intros a H. apply gi_pos_ok in H as [H _]. apply gi_ext; cbn; auto.
  - intros a H. apply real_parts in H. rewrite !gi_pos_ok. cbn. destruct (Qc_dec (gre a) 0) as [[L | L] | E].
    + right. right. split; [rewrite H; ring|]. apply Qclt_minus_iff in L. replace (0 + - gre a) with (- gre a) in L by ring. exact L.
    + right. left. auto.
    + left. apply gi_ext; auto.
  - reflexivity.
  - intros a b. rewrite !gi_pos_ok. cbn. intros [A1 A2] [B1 B2]. rewrite A1, B1. split; [ring|].
    apply Qclt_trans with (gre a); [exact A2|]. apply Qclt_minus_iff. replace (gre a + gre b + - gre a) with (gre b) by ring. exact B2.
  - intros a b. rewrite !gi_pos_ok. cbn. intros [A1 A2] [B1 B2]. rewrite A1, B1. split; [ring|].
    replace (gre a * gre b - 0 * 0) with (gre a * gre b) by ring. pose proof (Qcmult_lt_compat_r 0 (gre a) (gre b) B2 A2) as H. replace (0 * gre b) with 0 in H by ring. exact H.
  - intros x y. unfold fsqrt, GQ, gi_sqrt. destruct (Qc_eqb (gim x) 0); [|discriminate].
    destruct (Qc_sqrt (gre x)) as [a|] eqn:S1.
    + intros H. injection H as <-. apply Qc_sqrt_nneg, nneg_cases in S1 as [-> | P]; [right; split; [reflexivity|left; reflexivity]|left]. apply gi_pos_ok. cbn. auto.
    + destruct (Qc_sqrt (- gre x)) as [a|] eqn:S2; [|discriminate]. intros H. injection H as <-. right. split; [reflexivity|].
      apply Qc_sqrt_nneg, nneg_cases in S2 as [-> | P]; [left; reflexivity|right]. apply gi_pos_ok. cbn. auto.
Defined.
