(* Proofs about the three momenta of a Gram determinant and their masses: C87. *)
From Coq Require Import List ZArith Bool Lia Ring Field Permutation.
From Verif Require Import Base Fld Particle ParticleSpec ParticleThm Index IndexThm Phase PhaseSpec PhaseThm Det Arcs ArcsSpec ArcsThm Compute ComputeSpec ComputeThm ComputeThm2 ComputeThm3 GramThm Cluster ClusterSpec ClusterThm ThreeKs ThreeKsSpec.
Import ListNotations.

Section T.
Context {K : Fld}.
Open Scope fld_scope.
Add Field Kfthree : (fth K).
Implicit Types (s t : ps K) (p : particle K).

Lemma three_ks_eq cv s i j k A B C : three_arcs (length s) i j k A B C ->
  ijk_to_3Ks cv s [i; j; k] = cluster cv [A; B; C] s.
Proof.
  intros T. unfold ijk_to_3Ks, zlen.
  rewrite (three_arcs_arcs (length s) i j k (S (length s)) A B C (Nat.lt_succ_diag_r _) T). reflexivity.
Qed.

Lemma three_ks_inv cv s i j k A B C t : three_arcs (length s) i j k A B C -> ijk_to_3Ks cv s [i; j; k] = Ok t -> sound s ->
  exists p q r, t = [p; q; r] /\ mom_sum false s A = Ok (r2 p) /\ mom_sum false s B = Ok (r2 q) /\ mom_sum false s C = Ok (r2 r) /\
    lsq p = mdet (r2 p) /\ lsq q = mdet (r2 q) /\ lsq r = mdet (r2 r) /\ madd (r2 p) (madd (r2 q) (r2 r)) = total_mom s /\ sound t.
Proof.
  intros T E S. rewrite (three_ks_eq cv s i j k A B C T) in E. assert (St := cluster_sound cv _ s t E S).
  assert (P : Permutation (concat [A; B; C]) (upto (length s))) by (cbn; rewrite app_nil_r; apply T).
  assert (Q := total_cluster cv _ s t E P). unfold cluster in E. cbn in E.
  destruct (corner_sum cv s A) as [p|] eqn:Ep; [|discriminate]. cbn in E.
  destruct (corner_sum cv s B) as [q|] eqn:Eq; [|discriminate]. cbn in E.
  destruct (corner_sum cv s C) as [r|] eqn:Er; [|discriminate]. cbn in E. injection E as <-.
  apply corner_sum_spec in Ep as (Mp & _ & Cp & _). apply corner_sum_spec in Eq as (Mq & _ & Cq & _). apply corner_sum_spec in Er as (Mr & _ & Cr & _).
  exists p, q, r. split; [reflexivity|]. do 3 (split; [assumption|]).
  do 3 (split; [apply lsq_det, cons_r2b; auto|]). split; [|exact St]. rewrite <- Q. unfold total_mom. cbn.
  unfold madd, mzero. destruct (r2 p), (r2 q), (r2 r). cbn. f_equal; ring.
Qed.

Lemma three_ks_ok s i j k A B C : three_arcs (length s) i j k A B C -> exists t, ijk_to_3Ks Symmetric s [i; j; k] = Ok t.
Proof.
  intros T. rewrite (three_ks_eq _ s i j k A B C T). apply cluster_ok.
  destruct T as (HA & HB & HC & _ & _ & _ & P).
  assert (R : forall x, In x (A ++ B ++ C) -> (1 <= x <= zlen s)%Z).
  { intros x I. apply (Permutation_in _ P) in I. apply upto_In in I. unfold zlen. lia. }
  assert (N : forall (l : list Z) y, hd_error l = Some y -> l <> []) by (intros l y H ->; discriminate).
  repeat (apply Forall_cons; [split; [eapply N; eassumption|apply Forall_forall; intros x I; apply R; rewrite !in_app_iff; auto]|]).
  apply Forall_nil.
Qed.

Lemma opp_of (a b c : m2 K) : madd a (madd b c) = mzero -> mdet (madd a b) = mdet c.
Proof.
  intros E. assert (H : madd a b = mopp c).
  { destruct a as [x0 x1 x2 x3], b as [y0 y1 y2 y3], c as [z0 z1 z2 z3]. unfold madd, mzero, mopp in *. cbn in *. injection E as E0 E1 E2 E3.
    f_equal; [transitivity (x0 + (y0 + z0) - z0)|transitivity (x1 + (y1 + z1) - z1)|transitivity (x2 + (y2 + z2) - z2)|transitivity (x3 + (y3 + z3) - z3)]; try ring;
    [rewrite E0|rewrite E1|rewrite E2|rewrite E3]; ring. }
  rewrite H. destruct c. unfold mdet, mopp. cbn. ring.
Qed.

Lemma three_ks_kallen cv s i j k A B C t : sound s -> total_mom s = mzero -> three_arcs (length s) i j k A B C ->
  ijk_to_3Ks cv s [i; j; k] = Ok t ->
  exists x y z D, m2s t = [x; y; z] /\ total_mom t = mzero /\ c_delta3 s [i; j; k] = Ok D /\ (2 * 2) * D = kallen x y z.
Proof.
  intros S Z T E. destruct (three_ks_inv cv s i j k A B C t T E S) as (p & q & r & -> & Mp & Mq & Mr & Lp & Lq & Lr & Q & _).
  rewrite Z in Q. exists (lsq p), (lsq q), (lsq r). destruct (delta3_arcs s i j k A B C S T) as (Ed & D & ED).
  exists D. split; [reflexivity|]. split; [|split; [exact ED|]].
  { rewrite <- Q. unfold total_mom. cbn. unfold madd, mzero. destruct (r2 p), (r2 q), (r2 r). cbn. f_equal; ring. }
  rewrite Ed in ED. assert (V := fun l a (H : mom_sum false s l = Ok a) => S_value s l a H).
  rewrite (delta_three s A B C _ _ _ _ S (V _ _ Mp) (V _ _ Mq) (V _ _ (mom_sum_app false s A B _ _ Mp Mq)) (V _ _ Mr)) in ED.
  injection ED as <-. rewrite (opp_of _ _ _ Q), <- Lp, <- Lq, <- Lr. unfold kallen. field. apply two_nz.
Qed.

Lemma mass_sq p y : mass p = Ok y -> y * y = lsq p.
Proof. unfold mass. destruct (fsqrt (lsq p)) as [x|] eqn:E; [|discriminate]. intros [= ->]. exact (fsqrt_ok K _ _ E). Qed.
Lemma ms_sq s l : ms s = Ok l -> map (fun y => y * y) l = m2s s.
Proof.
  unfold ms, m2s. revert l. induction s as [|p s IH]; cbn; intros l E; [injection E as <-; reflexivity|].
  destruct (mass p) as [y|] eqn:M; [|discriminate]. cbn in E. destruct (rmapM mass s) as [r|] eqn:R; [|discriminate]. injection E as <-.
  cbn. rewrite (mass_sq _ _ M), (IH r eq_refl). reflexivity.
Qed.
Lemma kallen_factors (a b c : K) : kallen (a * a) (b * b) (c * c) = fold_right fmul 1 (thresholds a b c).
Proof. unfold kallen, thresholds. cbn. ring. Qed.

Lemma product_0 (l : list K) : fold_right fmul 1 l = 0 <-> In 0 l.
Proof.
  induction l as [|x l IH]; cbn; [split; [intros H; exfalso; exact (F_1_neq_0 (fth K) H)|contradiction]|]. rewrite <- IH. split.
  - intros H. destruct (feqb x 0) eqn:E; [left; apply (feqb_ok K), E|right].
    assert (N : x <> 0) by (intros ->; assert (feqb (0 : K) 0 = true) by (apply (feqb_ok K); reflexivity); congruence).
    transitivity (x * fold_right fmul 1 l / x); [field; exact N|rewrite H; field; exact N].
  - intros [-> | ->]; ring.
Qed.

Lemma three_ks_thresholds cv s i j k A B C t a b c : sound s -> total_mom s = mzero -> three_arcs (length s) i j k A B C ->
  ijk_to_3Ks cv s [i; j; k] = Ok t -> ms t = Ok [a; b; c] ->
  exists D, c_delta3 s [i; j; k] = Ok D /\ (2 * 2) * D = fold_right fmul 1 (thresholds a b c) /\ (D = 0 <-> In 0 (thresholds a b c)).
Proof.
  intros S Z T E M. destruct (three_ks_kallen cv s i j k A B C t S Z T E) as (x & y & z & D & Em & _ & ED & H).
  assert (Q := ms_sq _ _ M). rewrite Em in Q. cbn in Q. injection Q as <- <- <-. rewrite kallen_factors in H.
  exists D. split; [exact ED|]. split; [exact H|]. rewrite <- product_0, <- H. split; [intros ->; ring|].
  intros H0. transitivity (2 * 2 * D / 2 / 2); [field; apply two_nz|rewrite H0; field; apply two_nz].
Qed.

Lemma three_ks_momenta cv s t i j k A B C : sound s -> three_arcs (length s) i j k A B C ->
  (exists t', ijk_to_3Ks Symmetric s [i; j; k] = Ok t') /\
  (ijk_to_3Ks cv s [i; j; k] = Ok t -> exists p q r, t = [p; q; r] /\
    mom_sum false s A = Ok (r2 p) /\ mom_sum false s B = Ok (r2 q) /\ mom_sum false s C = Ok (r2 r) /\
    scalar (compute s (IS A)) = Ok (lsq p) /\ scalar (compute s (IS B)) = Ok (lsq q) /\ scalar (compute s (IS C)) = Ok (lsq r) /\
    m2s t = [lsq p; lsq q; lsq r] /\ total_mom t = total_mom s /\ sound t).
Proof.
  intros S T. split; [exact (three_ks_ok s i j k A B C T)|]. intros E.
  destruct (three_ks_inv cv s i j k A B C t T E S) as (p & q & r & -> & Mp & Mq & Mr & Lp & Lq & Lr & Q & St).
  exists p, q, r. split; [reflexivity|]. do 3 (split; [assumption|]).
  do 3 (split; [apply sVS; rewrite ?Lp, ?Lq, ?Lr; apply S_value; assumption|]).
  split; [reflexivity|]. split; [|exact St].
  rewrite <- Q. unfold total_mom. cbn. unfold madd, mzero. destruct (r2 p), (r2 q), (r2 r). cbn. f_equal; ring.
Qed.
Lemma three_ks_gram cv s t i j k A B C : sound s -> total_mom s = mzero -> three_arcs (length s) i j k A B C ->
  ijk_to_3Ks cv s [i; j; k] = Ok t ->
  exists x y z D, m2s t = [x; y; z] /\ scalar (compute s (IDelta3 [i; j; k])) = Ok D /\ (2 * 2) * D = kallen x y z.
Proof.
  intros S Z T E. destruct (three_ks_kallen cv s i j k A B C t S Z T E) as (x & y & z & D & M & _ & ED & H).
  exists x, y, z, D. split; [exact M|]. split; [exact (sVS _ _ ED)|exact H].
Qed.
Lemma three_ks_zero cv s t i j k A B C a b c : sound s -> total_mom s = mzero -> three_arcs (length s) i j k A B C ->
  ijk_to_3Ks cv s [i; j; k] = Ok t -> ms t = Ok [a; b; c] ->
  exists D, scalar (compute s (IDelta3 [i; j; k])) = Ok D /\ (2 * 2) * D = fold_right fmul 1 (thresholds a b c) /\
    (D = 0 <-> In 0 (thresholds a b c)).
Proof.
  intros S Z T E M. destruct (three_ks_thresholds cv s i j k A B C t a b c S Z T E M) as (D & ED & H).
  exists D. split; [exact (sVS _ _ ED)|exact H].
Qed.
End T.
