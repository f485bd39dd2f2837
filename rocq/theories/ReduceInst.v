(* Reduction of rational numbers modulo an odd prime is a place, and the integers 0..p-1 lift back. *)
From Coq Require Import List ZArith Bool Lia Ring Field Znumtheory QArith Qcanon.
From Verif Require Import Base Fld Particle ParticleSpec Index Phase PhaseSpec PhaseThm Compute ComputeSpec ToField ToFieldThm FldInst ModP Str Masses Text Reduce ReduceSpec ReduceThm.
Import ListNotations.

Section FracPlace.
Context (K L : Fld).
Open Scope fld_scope.
Add Field Krin : (fth K).
Add Field Lrin : (fth L).
Lemma frac_opp x y : frac_rel K L x y -> frac_rel K L (- x) (- y).
Proof.
  intros (n & d & N & N' & E & E'). exists (- n)%Z, d.
  replace (- n)%Z with (0 - n)%Z by lia. rewrite !zf_sub, !zf_0, <- E, <- E'.
  split; [exact N|]. split; [exact N'|]. split; ring.
Qed.
Lemma frac_inv x y : frac_rel K L x y -> y <> 0 -> x <> 0 -> frac_rel K L (finv x) (finv y).
Proof.
  intros (n & d & N & N' & E & E') Y X. exists d, n. rewrite <- E, <- E'.
  split; [apply mul_nz; assumption|]. split; [apply mul_nz; assumption|]. split; field; assumption.
Qed.
End FracPlace.

Section Place.
Variable p : Z.
Variable p_prime : prime p.
Variable p_odd : p <> 2%Z.
Lemma reduce_place : place (reduce p p_prime p_odd).
Proof.
  set (F := GFF p p_prime p_odd). pose proof (frac_rel_ring QF F) as [R0 R1 RA RS RM RH].
  pose proof (reduce_frac p p_prime p_odd) as D. pose proof (frac_reduce p p_prime p_odd) as U.
  constructor.
  - apply U, R1.
  - intros x y a b H G. apply U, RA; apply D; assumption.
  - intros x y a b H G. apply U, RM; apply D; assumption.
  - intros x a H. apply U, (frac_opp QF F), D, H.
  - intros x a H N. apply U, (frac_inv QF F); [apply D, H|exact N|].
    intros ->. apply D in H. apply U in H. rewrite (U _ _ R0) in H. inversion H. apply N. symmetry. assumption.
Qed.
(* for examples: the digit 0..p-1 as a rational number, as PAdic(x, prime, digits, from_addition=True)
   takes it, particles_singular_variety.py:60-65 *)
Definition digit_of (x : GFF p p_prime p_odd) : result QF := Ok (Q2Qc (inject_Z (gval p x))).
Lemma digit_lifts a : exists x, digit_of a = Ok x /\ reduce p p_prime p_odd x = Ok a.
Proof.
  exists (Q2Qc (inject_Z (gval p a))). split; [reflexivity|]. apply frac_reduce.
  exists (gval p a), 1%Z. split; [apply zfQ_nz; lia|]. split; [|split].
  - rewrite zf_1. apply f1_nz.
  - rewrite !zfQ. change (Q2Qc (inject_Z (gval p a)) * 1 = Q2Qc (inject_Z (gval p a)))%Qc. apply Qcmult_1_r.
  - rewrite zf_1. change (@fmul (GFF p p_prime p_odd) a (@f1 (GFF p p_prime p_odd)) = zf (gval p a)).
    rewrite zfP. transitivity a.
    + rewrite (Rmul_comm (F_R (fth (GFF p p_prime p_odd)))). apply (Rmul_1_l (F_R (fth (GFF p p_prime p_odd)))).
    + apply gf_ext. cbn. symmetry. apply gval_mod; assumption.
Qed.
End Place.
