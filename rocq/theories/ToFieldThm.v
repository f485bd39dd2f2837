(* Proofs about ToField.v: C33. *)
From Coq Require Import List ZArith Bool Lia Setoid Ring Field InitialRing.
From Verif Require Import Base Fld Particle ParticleSpec ParticleThm Index IndexThm Phase PhaseSpec PhaseThm Det Compute ComputeSpec ComputeThm ComputeThm2 ComputeThm3 ComputeThm4 ComputeThm5 ToField.
Import ListNotations.

Section Thm.
Context {K K' : Fld} (R : K -> K' -> Prop) (RR : ring_rel K K' R).
Variable field : K -> result K'.
Hypothesis FR : forall x y, field x = Ok y -> R x y.

Lemma v_to_field_rel v v' : v_to_field field v = Ok v' -> v2rel R v v'.
Proof.
  unfold v_to_field. destruct (field (e0 v)) eqn:E0; [|discriminate]. destruct (field (e1 v)) eqn:E1; [|discriminate].
  cbn. intros H; inversion H; subst. split; cbn; auto.
Qed.
Lemma p_to_field_rel p p' : consistent p -> reproduces p -> p_to_field field p = Ok p' ->
  prel R p p' /\ consistent p' /\ reproduces p'.
Proof.
  intros C (r & l & Hr & Hl & Eb & E2 & Hru & Hlu). unfold p_to_field. rewrite Hr, Hl.
  destruct (v_to_field field r) as [r'|] eqn:Er; [|discriminate]. destruct (v_to_field field l) as [l'|] eqn:El; [|discriminate].
  cbn [rbind]. intros H.
  assert (E : init_spinors r' l' (mkP None None None None mzero mzero None None (spin p)) =
    assign_l_sp_d l' (set_ru (Some (raise_r r')) (set_rd (Some r') (mkP None None None None mzero mzero None None (spin p))))).
  { unfold init_spinors. cbv beta iota delta [bind modify r_sp_d_to_r_sp_u get need ret]. cbn [r_d set_rd]. rewrite LC_mv. reflexivity. }
  rewrite E, (assign_l_sp_d_eq l' _ r') in H by reflexivity. cbn in H. inversion H; subst p'. clear H E.
  apply v_to_field_rel in Er. apply v_to_field_rel in El. destruct Er as [Er0 Er1]. destruct El as [El0 El1].
  assert (O : forall x x', R x x' -> R (- x)%fld (- x')%fld) by (apply (rr_opp R RR)).
  pose proof (rr_mul _ _ _ RR) as M.
  split; [|split].
  - constructor; cbn; rewrite ?Hr, ?Hl, ?Hru, ?Hlu, ?E2, ?Eb; cbn; repeat split; cbn; auto.
  - rewrite (outer_adj r' l'). apply consistent_mk; reflexivity.
  - exists r', l'. cbn. auto 10.
Qed.
Lemma ps_to_field_rel s s' : sound s -> Forall (fun p => reproduces p) s -> ps_to_field field s = Ok s' ->
  Forall2 (prel R) s s'.
Proof.
  unfold ps_to_field. revert s'. induction s as [|p s IH]; cbn; intros s' S Rp H; [inversion H; constructor|].
  destruct (p_to_field field p) as [p'|] eqn:E; [|discriminate]. destruct (rmapM (p_to_field field) s) as [t|] eqn:Et; [|discriminate].
  cbn in H. inversion H; subst. constructor.
  - apply (p_to_field_rel p p' (Forall_inv S) (Forall_inv Rp) E).
  - apply IH; [apply (Forall_inv_tail S)|apply (Forall_inv_tail Rp)|reflexivity].
Qed.
Lemma to_field_compute s s' e : sound s -> Forall (fun p => reproduces p) s -> ps_to_field field s = Ok s' ->
  rrel (vrel R) (compute s e) (compute s' e).
Proof. intros S Rp H. apply (rel_compute R RR), ps_to_field_rel; assumption. Qed.
End Thm.

Section Frac.
Context {K : Fld}.
Open Scope fld_scope.
Add Field Ktf : (fth K).
Lemma Kst : Setoid.Setoid_Theory K eq. Proof. split; red; congruence. Qed.
Lemma Kre : ring_eq_ext (@fadd K) fmul fopp eq. Proof. split; red; intros; congruence. Qed.
Lemma zf_morph : ring_morph (0 : K) 1 fadd fmul fsub fopp eq 0%Z 1%Z Z.add Z.mul Z.sub Z.opp Zeq_bool (zf (K:=K)).
Proof. apply (gen_phiZ_morph Kst Kre (F_R (fth K))). Qed.
Lemma zf_add a b : (zf (a + b) : K) = zf a + zf b. Proof. apply (morph_add zf_morph). Qed.
Lemma zf_sub a b : (zf (a - b) : K) = zf a - zf b. Proof. apply (morph_sub zf_morph). Qed.
Lemma zf_mul a b : (zf (a * b) : K) = zf a * zf b. Proof. apply (morph_mul zf_morph). Qed.
Lemma zf_0 : (zf 0 : K) = 0. Proof. reflexivity. Qed.
Lemma zf_1 : (zf 1 : K) = 1. Proof. reflexivity. Qed.
Lemma zf_2 : (zf 2 : K) = 2. Proof. cbn. reflexivity. Qed.
End Frac.

Section FracRel.
Context (K K' : Fld).
Open Scope fld_scope.
Add Field Ktf1 : (fth K).
Add Field Ktf2 : (fth K').
Lemma frac_rel_ring : ring_rel K K' (frac_rel K K').
Proof.
  constructor.
  - exists 0%Z, 1%Z. rewrite !zf_0, !zf_1. repeat split; try apply f1_nz; ring.
  - exists 1%Z, 1%Z. rewrite !zf_1. repeat split; try apply f1_nz; ring.
  - intros x y x' y' (n & d & N & N' & E & E') (m & e & M & M' & F & F').
    exists (n * e + m * d)%Z, (d * e)%Z. rewrite !zf_add, !zf_mul.
    repeat split; try (apply mul_nz; assumption); rewrite <- ?E, <- ?E', <- ?F, <- ?F'; ring.
  - intros x y x' y' (n & d & N & N' & E & E') (m & e & M & M' & F & F').
    exists (n * e - m * d)%Z, (d * e)%Z. rewrite !zf_sub, !zf_mul.
    repeat split; try (apply mul_nz; assumption); rewrite <- ?E, <- ?E', <- ?F, <- ?F'; ring.
  - intros x y x' y' (n & d & N & N' & E & E') (m & e & M & M' & F & F').
    exists (n * m)%Z, (d * e)%Z. rewrite !zf_mul.
    repeat split; try (apply mul_nz; assumption); rewrite <- ?E, <- ?E', <- ?F, <- ?F'; ring.
  - intros x x' (n & d & N & N' & E & E').
    exists n, (2 * d)%Z. rewrite !zf_mul, !zf_2. repeat split; try (apply mul_nz; [apply two_nz'|assumption]).
    + rewrite <- E. field. apply two_nz'.
    + rewrite <- E'. field. apply two_nz'.
Qed.
(* a number of K has at most one counterpart in K' if the integers of K' are
   determined by those of K *)
Lemma frac_rel_fun : (forall n : Z, zf n = (0 : K) -> zf n = (0 : K')) ->
  forall x y y', frac_rel K K' x y -> frac_rel K K' x y' -> y = y'.
Proof.
  intros Z0 x y y' (n & d & N & N' & E & E') (m & e & M & M' & F & F').
  assert (G : zf (n * e - m * d) = (0 : K)). { rewrite zf_sub, !zf_mul, <- E, <- F. ring. }
  apply Z0 in G. rewrite zf_sub, !zf_mul, <- E', <- F' in G.
  assert (G' : (y - y') * (zf d * zf e) = 0) by (rewrite <- G; ring).
  assert (D : zf d * zf e <> (0 : K')) by (apply mul_nz; assumption).
  assert (G2 : y - y' = 0). { transitivity ((y - y') * (zf d * zf e) / (zf d * zf e)); [field; auto|]. rewrite G'. field; auto. }
  transitivity ((y - y') + y'); [ring|rewrite G2; ring].
Qed.
End FracRel.
