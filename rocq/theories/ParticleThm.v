(* Proofs about Particle.v. *)
From Coq Require Import List ZArith Bool Lia Ring Field.
From Verif Require Import Base Fld Particle ParticleSpec.
Import ListNotations.

Section Thm.
Context {K : Fld}.
Open Scope fld_scope.
Add Field Kf : (fth K).

Notation particle := (particle K).
Implicit Types p q : particle.
Implicit Types i : K.

Lemma two_nz : (2 : K) <> 0.
Proof. exact (f2_nz K). Qed.

Lemma m2_ext (a b : m2 K) :
  m00 a = m00 b -> m01 a = m01 b -> m10 a = m10 b -> m11 a = m11 b -> a = b.
Proof. destruct a, b; cbn; intros; subst; reflexivity. Qed.
Lemma v2_ext (a b : v2 K) : e0 a = e0 b -> e1 a = e1 b -> a = b.
Proof. destruct a, b; cbn; intros; subst; reflexivity. Qed.
Lemma v4_ext (a b : v4 K) : c0 a = c0 b -> c1 a = c1 b -> c2 a = c2 b -> c3 a = c3 b -> a = b.
Proof. destruct a, b; cbn; intros; subst; reflexivity. Qed.

(* ---------- lemmas on the private conversions ---------- *)

Lemma dbl (x y : K) : 2 * x = 2 * y -> x = y.
Proof.
  intros H. assert (E : x = (2 * x) / 2) by (field; apply two_nz).
  rewrite E, H. field; apply two_nz.
Qed.

Lemma i_sq i : fimag = Some i -> i * i = - (1 : K).
Proof. apply (fimag_ok K). Qed.

Ltac mext := apply m2_ext; unfold_vec; cbn [m00 m01 m10 m11 e0 e1].
Ltac vext := apply v2_ext; unfold_vec; cbn [m00 m01 m10 m11 e0 e1].

Lemma LC_adj (m : m2 K) : mT (mmul LeviCivita (mmul m (mT LeviCivita))) = adj m.
Proof. unfold adj, LeviCivita. mext; ring. Qed.
Lemma adj_adj (m : m2 K) : adj (adj m) = m.
Proof. unfold adj. mext; ring. Qed.
Lemma LC_mv (v : v2 K) : mv LeviCivita v = raise_r v.
Proof. unfold raise_r, LeviCivita. vext; ring. Qed.
Lemma LC_vmT (v : v2 K) : vm v (mT LeviCivita) = raise_r v.
Proof. unfold raise_r, LeviCivita. vext; ring. Qed.
Lemma LC_vm (v : v2 K) : vm v LeviCivita = V2 (- e1 v) (e0 v).
Proof. unfold LeviCivita. vext; ring. Qed.
Lemma LC_mvT (v : v2 K) : mv (mT LeviCivita) v = V2 (- e1 v) (e0 v).
Proof. unfold LeviCivita. vext; ring. Qed.
Lemma raise_lower (v : v2 K) : raise_r (V2 (- e1 v) (e0 v)) = v.
Proof. unfold raise_r; cbn. vext; ring. Qed.

Definition vec_up (i : K) (m : m2 K) : v4 K :=
  V4 ((m00 m + m11 m) / 2) (- (m01 m + m10 m) / 2) (i * (m10 m - m01 m) / 2) ((m11 m - m00 m) / 2).

Lemma fm_of_r2 i (m : m2 K) : fimag = Some i ->
  (let c mu := mtr (mmul (Pauli_bar i mu) m) / 2 in V4 (c 0%nat) (c 1%nat) (c 2%nat) (c 3%nat))
  = vec_up i m.
Proof.
  intros Hi. apply v4_ext; unfold Pauli_bar, Pauli, vec_up; unfold_vec; field; apply two_nz.
Qed.
Lemma fm_of_r2b i (m : m2 K) : fimag = Some i ->
  (let c mu := mtr (mmul (Pauli i mu) m) / 2 in V4 (c 0%nat) (c 1%nat) (c 2%nat) (c 3%nat))
  = vec_up i (adj m).
Proof.
  intros Hi. apply v4_ext; unfold Pauli_bar, Pauli, vec_up, adj; unfold_vec; field; apply two_nz.
Qed.

Lemma slash_up_vec i m : fimag = Some i -> slash_up i (vec_up i m) = m.
Proof.
  intros Hi. pose proof (i_sq i Hi) as Hs.
  unfold slash_up, vec_up.
  assert (E : forall x : K, i * (i * x / 2) = - x / 2).
  { intros x. replace (i * (i * x / 2)) with ((i * i) * x / 2) by (field; apply two_nz).
    rewrite Hs. field; apply two_nz. }
  apply m2_ext; cbn [c0 c1 c2 c3 m00 m01 m10 m11]; rewrite ?E; field; apply two_nz.
Qed.
Lemma slash_dn_adj i (p : v4 K) : slash_dn i p = adj (slash_up i p).
Proof. unfold slash_dn, slash_up, adj. mext; ring. Qed.
Lemma vec_slash_up i (p : v4 K) : fimag = Some i -> vec_up i (slash_up i p) = p.
Proof.
  intros Hi. pose proof (i_sq i Hi) as Hs.
  apply v4_ext; unfold slash_up, vec_up; unfold_vec; try (field; apply two_nz).
  match goal with |- ?l = _ =>
    replace l with (- (i * i) * c2 p) by (field; apply two_nz) end.
  rewrite Hs; ring.
Qed.
Lemma tensor_up i (p : v4 K) : tensordot (metric p) (Pauli i) = slash_up i p.
Proof. unfold tensordot, Pauli, metric, slash_up. mext; ring. Qed.
Lemma tensor_dn i (p : v4 K) : tensordot (metric p) (Pauli_bar i) = slash_dn i p.
Proof. unfold tensordot, Pauli_bar, Pauli, metric, slash_dn. mext; ring. Qed.
Lemma tensor_up' i (p : v4 K) : tensordot p (Pauli i) = slash_up i (metric p).
Proof. unfold tensordot, Pauli, metric, slash_up. mext; ring. Qed.
Lemma tensor_dn' i (p : v4 K) : tensordot p (Pauli_bar i) = slash_dn i (metric p).
Proof. unfold tensordot, Pauli_bar, Pauli, metric, slash_dn. mext; ring. Qed.
Lemma metric_metric (p : v4 K) : metric (metric p) = p.
Proof. unfold metric; apply v4_ext; cbn; ring. Qed.

Lemma outer_adj (r l : v2 K) : outer r l = adj (outer (raise_r l) (raise_r r)).
Proof. unfold raise_r, adj. mext; ring. Qed.
Lemma outer_adj' (r l : v2 K) : adj (outer r l) = outer (raise_r l) (raise_r r).
Proof. unfold raise_r, adj. mext; ring. Qed.

(* effect of the repeated blocks *)
Definition with_fm (v : option (v4 K)) (p : particle) : particle :=
  set_fmd (option_map metric v) (set_fm v p).
Definition fm_for (m : m2 K) : option (v4 K) := option_map (fun i => vec_up i m) fimag.

Lemma four_mom_from_r2b_eq p :
  four_mom_from_r2b p = (with_fm (fm_for (adj (r2b p))) p, Ok tt).
Proof.
  unfold four_mom_from_r2b, try_except, bind, r2_sp_b_to_four_momentum, need_i, fm_for, with_fm.
  destruct fimag as [i|] eqn:Hi; [|reflexivity].
  cbv beta iota delta [ret raise bind modify get need four_mom_to_four_mom_d].
  pose proof (fm_of_r2b i (r2b p) Hi) as H. cbv zeta in H. rewrite H. reflexivity.
Qed.
Lemma four_mom_from_r2_eq p :
  four_mom_from_r2 p = (with_fm (fm_for (r2 p)) p, Ok tt).
Proof.
  unfold four_mom_from_r2, try_except, bind, r2_sp_to_four_momentum, need_i, fm_for, with_fm.
  destruct fimag as [i|] eqn:Hi; [|reflexivity].
  cbv beta iota delta [ret raise bind modify get need four_mom_to_four_mom_d].
  pose proof (fm_of_r2 i (r2 p) Hi) as H. cbv zeta in H. rewrite H. reflexivity.
Qed.

Lemma consistent_mk ru rd lu ld m s :
  ru = option_map raise_r rd -> lu = option_map raise_r ld ->
  consistent (mkP ru rd lu ld m (adj m) (fm_for m) (option_map metric (fm_for m)) s).
Proof.
  intros Hr Hl. constructor; cbn [r2 r2b fm fmd r_u r_d l_u l_d]; auto.
  unfold fm_for. destruct fimag as [i|] eqn:Hi; cbn; [|auto].
  split; [reflexivity|]. exists i. split; [auto|]. split.
  - symmetry; apply slash_up_vec; auto.
  - rewrite slash_dn_adj, slash_up_vec; auto.
Qed.

Lemma consistent_spinors (p : particle) ru rd lu ld :
  ru = option_map raise_r rd -> lu = option_map raise_r ld ->
  consistent p -> consistent (mkP ru rd lu ld (r2 p) (r2b p) (fm p) (fmd p) (spin p)).
Proof. intros Hr Hl [H1 H2 H3 H4]. constructor; cbn [r2 r2b fm fmd r_u r_d l_u l_d]; auto. Qed.

(* what the two spinor blocks can do: only the spinor attributes change, and they stay paired *)
Definition only_spinors (p q : particle) : Prop :=
  r2 q = r2 p /\ r2b q = r2b p /\ fm q = fm p /\ fmd q = fmd p /\ spin q = spin p /\
  r_u q = option_map raise_r (r_d q) /\ l_u q = option_map raise_r (l_d q).

Lemma only_spinors_consistent p q : only_spinors p q -> consistent p -> consistent q.
Proof.
  intros (E1 & E2 & E3 & E4 & E5 & E6 & E7) [H1 H2 H3 H4].
  constructor; rewrite ?E1, ?E2, ?E3, ?E4; auto.
Qed.

Ltac run_simp := cbv beta iota delta [ret raise bind modify get need lift sqrtM divE try_except
   clear_spinors need_i].

Lemma set_r_from_cases cv a b (p : particle) :
  (exists w, set_r_sp_d_from cv a b p = (set_rd (Some w) p, Ok tt)) \/
  (exists e, set_r_sp_d_from cv a b p = (p, Err e) /\ caught e = true).
Proof.
  unfold set_r_sp_d_from. destruct cv; run_simp; [|left; eexists; reflexivity].
  destruct (feqb a 0) eqn:Ea; [right; exists ValueError; auto|].
  destruct (fsqrt a) as [y|] eqn:Es; [|right; exists ValueError; auto].
  assert (Hy : feqb y 0 = false).
  { apply feqb_neq. intros ->. apply fsqrt_ok in Es.
    apply feqb_neq in Ea. apply Ea. rewrite <- Es. ring. }
  rewrite Hy. left; eexists; reflexivity.
Qed.
Lemma set_l_from_cases cv a b (p : particle) :
  (exists w, set_l_sp_d_from cv a b p = (set_ld (Some w) p, Ok tt)) \/
  (exists e, set_l_sp_d_from cv a b p = (p, Err e)).
Proof.
  unfold set_l_sp_d_from. destruct cv; run_simp.
  - destruct (feqb a 0) eqn:Ea; [right; exists ValueError; auto|].
    destruct (fsqrt a) as [y|] eqn:Es; [|right; exists ValueError; auto].
    destruct (feqb y 0); [right; eauto|left; eexists; reflexivity].
  - destruct (feqb a 0); [right; eauto|left; eexists; reflexivity].
Qed.

Lemma spinors_from_r2_only cv (p : particle) :
  r_u p = option_map raise_r (r_d p) -> l_u p = option_map raise_r (l_d p) ->
  only_spinors p (fst (spinors_from_r2 cv p)).
Proof.
  intros Hr Hl. unfold spinors_from_r2, r2_sp_to_r_sp_d, r2_sp_to_l_sp_d.
  unfold try_except.
  cbv beta iota delta [bind get].
  destruct (set_r_from_cases cv (m11 (r2 p)) (- m10 (r2 p)) p) as [[w ->]|[e [-> He]]].
  2:{ rewrite He. unfold only_spinors. cbn. auto 10. }
  cbv beta iota delta [r_sp_d_to_r_sp_u get bind need ret modify].
  cbn [r_d set_rd]. rewrite LC_mv.
  match goal with |- context [set_l_sp_d_from cv ?x ?y ?q] =>
    destruct (set_l_from_cases cv x y q) as [[w' ->]|[e ->]] end.
  - cbv beta iota delta [l_sp_d_to_l_sp_u get bind need ret modify].
    cbn [l_d set_ld]. rewrite LC_vmT. unfold only_spinors; cbn. auto 10.
  - destruct (caught e); unfold only_spinors; cbn; auto 10.
Qed.
Lemma spinors_from_fm_only cv (p : particle) :
  r_u p = option_map raise_r (r_d p) -> l_u p = option_map raise_r (l_d p) ->
  only_spinors p (fst (spinors_from_fm cv p)).
Proof.
  intros Hr Hl. unfold spinors_from_fm, four_mom_to_r_sp_d, four_mom_to_l_sp_d.
  unfold try_except.
  cbv beta iota delta [bind get need need_i ret raise].
  destruct (fm p) as [v|] eqn:Hv.
  2:{ unfold only_spinors. cbn. auto 10. }
  destruct fimag as [i|] eqn:Hi; [|unfold only_spinors; cbn; auto 10].
  match goal with |- context [set_r_sp_d_from cv ?x ?y ?q] =>
    destruct (set_r_from_cases cv x y q) as [[w ->]|[e [-> He]]] end.
  2:{ rewrite He. unfold only_spinors. cbn. auto 10. }
  cbv beta iota delta [r_sp_d_to_r_sp_u get bind need ret modify].
  cbn [r_d set_rd fm set_ru]. rewrite Hv, LC_mv.
  match goal with |- context [set_l_sp_d_from cv ?x ?y ?q] =>
    destruct (set_l_from_cases cv x y q) as [[w' ->]|[e ->]] end.
  - cbv beta iota delta [l_sp_d_to_l_sp_u get bind need ret modify].
    cbn [l_d set_ld]. rewrite LC_vmT. unfold only_spinors; cbn. auto 10.
  - destruct (caught e); unfold only_spinors; cbn; auto 10.
Qed.

(* ---------- one step ---------- *)

Lemma assign_r_sp_d_eq v p l : l_d p = Some l -> l_u p = Some (raise_r l) ->
  assign_r_sp_d v p =
  (mkP (Some (raise_r v)) (Some v) (Some (raise_r l)) (Some l)
       (outer (raise_r l) (raise_r v)) (outer v l)
       (fm_for (outer (raise_r l) (raise_r v)))
       (option_map metric (fm_for (outer (raise_r l) (raise_r v)))) (spin p), Ok tt).
Proof.
  destruct p as [ru rd lu ld m mb f fd sp]; cbn [l_d l_u r_d r_u spin]. intros -> ->. unfold assign_r_sp_d.
  cbv beta iota delta [bind modify r_sp_d_to_r_sp_u r1_sp_to_r2_sp r1_sp_to_r2_sp_b get need ret].
  cbn [r_d r_u l_u l_d r2 r2b fm fmd spin set_rd set_ru set_ld set_lu set_r2 set_r2b].
  rewrite four_mom_from_r2b_eq. unfold with_fm.
  cbn [r_d r_u l_u l_d r2 r2b fm fmd spin set_rd set_ru set_ld set_lu set_r2 set_r2b set_fm set_fmd].
  rewrite ?LC_mv, ?LC_vmT, ?LC_vm, ?LC_mvT, outer_adj', ?raise_lower.
  reflexivity.
Qed.
Lemma assign_r_sp_u_eq v p l : l_d p = Some l -> l_u p = Some (raise_r l) ->
  assign_r_sp_u v p =
  (mkP (Some v) (Some (V2 (- e1 v) (e0 v))) (Some (raise_r l)) (Some l)
       (outer (raise_r l) v) (outer (V2 (- e1 v) (e0 v)) l)
       (fm_for (outer (raise_r l) v))
       (option_map metric (fm_for (outer (raise_r l) v))) (spin p), Ok tt).
Proof.
  destruct p as [ru rd lu ld m mb f fd sp]; cbn [l_d l_u r_d r_u spin]. intros -> ->. unfold assign_r_sp_u.
  cbv beta iota delta [bind modify r_sp_u_to_r_sp_d r1_sp_to_r2_sp r1_sp_to_r2_sp_b get need ret].
  cbn [r_d r_u l_u l_d r2 r2b fm fmd spin set_rd set_ru set_ld set_lu set_r2 set_r2b].
  rewrite four_mom_from_r2b_eq. unfold with_fm.
  cbn [r_d r_u l_u l_d r2 r2b fm fmd spin set_rd set_ru set_ld set_lu set_r2 set_r2b set_fm set_fmd].
  rewrite ?LC_mv, ?LC_vmT, ?LC_vm, ?LC_mvT, outer_adj', ?raise_lower.
  reflexivity.
Qed.
Lemma assign_l_sp_d_eq v p r : r_d p = Some r -> r_u p = Some (raise_r r) ->
  assign_l_sp_d v p =
  (mkP (Some (raise_r r)) (Some r) (Some (raise_r v)) (Some v)
       (outer (raise_r v) (raise_r r)) (outer r v)
       (fm_for (outer (raise_r v) (raise_r r)))
       (option_map metric (fm_for (outer (raise_r v) (raise_r r)))) (spin p), Ok tt).
Proof.
  destruct p as [ru rd lu ld m mb f fd sp]; cbn [l_d l_u r_d r_u spin]. intros -> ->. unfold assign_l_sp_d.
  cbv beta iota delta [bind modify l_sp_d_to_l_sp_u r1_sp_to_r2_sp r1_sp_to_r2_sp_b get need ret].
  cbn [r_d r_u l_u l_d r2 r2b fm fmd spin set_rd set_ru set_ld set_lu set_r2 set_r2b].
  rewrite four_mom_from_r2b_eq. unfold with_fm.
  cbn [r_d r_u l_u l_d r2 r2b fm fmd spin set_rd set_ru set_ld set_lu set_r2 set_r2b set_fm set_fmd].
  rewrite ?LC_mv, ?LC_vmT, ?LC_vm, ?LC_mvT, outer_adj', ?raise_lower.
  reflexivity.
Qed.
Lemma assign_l_sp_u_eq v p r : r_d p = Some r -> r_u p = Some (raise_r r) ->
  assign_l_sp_u v p =
  (mkP (Some (raise_r r)) (Some r) (Some v) (Some (V2 (- e1 v) (e0 v)))
       (outer v (raise_r r)) (outer r (V2 (- e1 v) (e0 v)))
       (fm_for (outer v (raise_r r)))
       (option_map metric (fm_for (outer v (raise_r r)))) (spin p), Ok tt).
Proof.
  destruct p as [ru rd lu ld m mb f fd sp]; cbn [l_d l_u r_d r_u spin]. intros -> ->. unfold assign_l_sp_u.
  cbv beta iota delta [bind modify l_sp_u_to_l_sp_d r1_sp_to_r2_sp r1_sp_to_r2_sp_b get need ret].
  cbn [r_d r_u l_u l_d r2 r2b fm fmd spin set_rd set_ru set_ld set_lu set_r2 set_r2b].
  rewrite four_mom_from_r2b_eq. unfold with_fm.
  cbn [r_d r_u l_u l_d r2 r2b fm fmd spin set_rd set_ru set_ld set_lu set_r2 set_r2b set_fm set_fmd].
  rewrite ?LC_mv, ?LC_vmT, ?LC_vm, ?LC_mvT, outer_adj', ?raise_lower.
  reflexivity.
Qed.

(* spinor setters when the other chirality is missing: TypeError before r2_sp is touched *)
Lemma assign_r_sp_d_none v (p : particle) : l_u p = None ->
  assign_r_sp_d v p = (set_ru (Some (raise_r v)) (set_rd (Some v) p), Err TypeError).
Proof.
  intros H. unfold assign_r_sp_d.
  cbv beta iota delta [bind modify r_sp_d_to_r_sp_u r1_sp_to_r2_sp get need ret raise].
  cbn [r_d r_u l_u l_d set_rd set_ru]. rewrite H, LC_mv. reflexivity.
Qed.
Lemma assign_r_sp_u_none v (p : particle) : l_u p = None ->
  assign_r_sp_u v p = (set_rd (Some (V2 (- e1 v) (e0 v))) (set_ru (Some v) p), Err TypeError).
Proof.
  intros H. unfold assign_r_sp_u.
  cbv beta iota delta [bind modify r_sp_u_to_r_sp_d r1_sp_to_r2_sp get need ret raise].
  cbn [r_d r_u l_u l_d set_rd set_ru]. rewrite H, LC_vm. reflexivity.
Qed.
Lemma assign_l_sp_d_none v (p : particle) : r_u p = None ->
  assign_l_sp_d v p = (set_lu (Some (raise_r v)) (set_ld (Some v) p), Err TypeError).
Proof.
  intros H. unfold assign_l_sp_d.
  cbv beta iota delta [bind modify l_sp_d_to_l_sp_u r1_sp_to_r2_sp get need ret raise].
  cbn [r_d r_u l_u l_d set_ld set_lu]. rewrite H, LC_vmT. reflexivity.
Qed.
Lemma assign_l_sp_u_none v (p : particle) : r_u p = None ->
  assign_l_sp_u v p = (set_ld (Some (V2 (- e1 v) (e0 v))) (set_lu (Some v) p), Err TypeError).
Proof.
  intros H. unfold assign_l_sp_u.
  cbv beta iota delta [bind modify l_sp_u_to_l_sp_d r1_sp_to_r2_sp get need ret raise].
  cbn [r_d r_u l_u l_d set_ld set_lu]. rewrite H, LC_mvT. reflexivity.
Qed.

Lemma cons_lower (o : option (v2 K)) v : o = Some v -> Some v = option_map raise_r (Some (V2 (- e1 v) (e0 v))).
Proof. intros _. cbn. rewrite raise_lower. reflexivity. Qed.

Lemma step_rd v (p : particle) : consistent p -> consistent (fst (assign_r_sp_d v p)).
Proof.
  intros C. destruct (l_d p) as [l|] eqn:Hl.
  - rewrite (assign_r_sp_d_eq v p l Hl) by (rewrite (cons_l _ C), Hl; reflexivity).
    cbn [fst]. rewrite (outer_adj v l). apply consistent_mk; reflexivity.
  - rewrite assign_r_sp_d_none by (rewrite (cons_l _ C), Hl; reflexivity).
    cbn [fst]. apply (consistent_spinors p); cbn; auto; rewrite (cons_l _ C), Hl; reflexivity.
Qed.
Lemma step_ru v (p : particle) : consistent p -> consistent (fst (assign_r_sp_u v p)).
Proof.
  intros C. destruct (l_d p) as [l|] eqn:Hl.
  - rewrite (assign_r_sp_u_eq v p l Hl) by (rewrite (cons_l _ C), Hl; reflexivity).
    cbn [fst]. rewrite (outer_adj _ l), raise_lower. apply consistent_mk; cbn; rewrite ?raise_lower; reflexivity.
  - rewrite assign_r_sp_u_none by (rewrite (cons_l _ C), Hl; reflexivity).
    cbn [fst]. apply (consistent_spinors p); cbn; rewrite ?raise_lower; auto; rewrite (cons_l _ C), Hl; reflexivity.
Qed.
Lemma step_ld v (p : particle) : consistent p -> consistent (fst (assign_l_sp_d v p)).
Proof.
  intros C. destruct (r_d p) as [r|] eqn:Hr.
  - rewrite (assign_l_sp_d_eq v p r Hr) by (rewrite (cons_r _ C), Hr; reflexivity).
    cbn [fst]. rewrite (outer_adj r v). apply consistent_mk; reflexivity.
  - rewrite assign_l_sp_d_none by (rewrite (cons_r _ C), Hr; reflexivity).
    cbn [fst]. apply (consistent_spinors p); cbn; auto; rewrite (cons_r _ C), Hr; reflexivity.
Qed.
Lemma step_lu v (p : particle) : consistent p -> consistent (fst (assign_l_sp_u v p)).
Proof.
  intros C. destruct (r_d p) as [r|] eqn:Hr.
  - rewrite (assign_l_sp_u_eq v p r Hr) by (rewrite (cons_r _ C), Hr; reflexivity).
    cbn [fst]. rewrite (outer_adj r _), raise_lower. apply consistent_mk; cbn; rewrite ?raise_lower; reflexivity.
  - rewrite assign_l_sp_u_none by (rewrite (cons_r _ C), Hr; reflexivity).
    cbn [fst]. apply (consistent_spinors p); cbn; rewrite ?raise_lower; auto; rewrite (cons_r _ C), Hr; reflexivity.
Qed.

Lemma assign_r2_sp_fst cv m p :
  assign_r2_sp cv m p = spinors_from_r2 cv (mkP (r_u p) (r_d p) (l_u p) (l_d p) m (adj m)
     (fm_for m) (option_map metric (fm_for m)) (spin p)).
Proof.
  unfold assign_r2_sp. cbv beta iota delta [bind modify r2_sp_to_r2_sp_b].
  rewrite four_mom_from_r2_eq. cbn [r2 set_r2 set_r2b]. rewrite LC_adj.
  reflexivity.
Qed.
Lemma assign_r2_sp_b_fst cv m p :
  assign_r2_sp_b cv m p = spinors_from_r2 cv (mkP (r_u p) (r_d p) (l_u p) (l_d p) (adj m) m
     (fm_for (adj m)) (option_map metric (fm_for (adj m))) (spin p)).
Proof.
  unfold assign_r2_sp_b. cbv beta iota delta [bind modify r2_sp_b_to_r2_sp].
  rewrite four_mom_from_r2b_eq. cbn [r2b set_r2 set_r2b]. rewrite LC_adj.
  reflexivity.
Qed.
Lemma assign_four_mom_i cv v (p : particle) i : fimag = Some i ->
  assign_four_mom cv v p = spinors_from_fm cv (mkP (r_u p) (r_d p) (l_u p) (l_d p)
     (slash_up i v) (slash_dn i v) (Some v) (Some (metric v)) (spin p)).
Proof.
  intros Hi. unfold assign_four_mom.
  cbv beta iota delta [bind modify four_mom_to_four_mom_d four_mom_d_to_r2_sp four_mom_d_to_r2_sp_b get need need_i ret].
  cbn [fm fmd set_fm set_fmd set_r2 set_r2b]. rewrite Hi.
  cbn [fm fmd set_fm set_fmd set_r2 set_r2b]. rewrite tensor_up, tensor_dn. reflexivity.
Qed.
Lemma assign_four_mom_d_i cv v (p : particle) i : fimag = Some i ->
  assign_four_mom_d cv v p = spinors_from_fm cv (mkP (r_u p) (r_d p) (l_u p) (l_d p)
     (slash_up i (metric v)) (slash_dn i (metric v)) (Some (metric v)) (Some v) (spin p)).
Proof.
  intros Hi. unfold assign_four_mom_d.
  cbv beta iota delta [bind modify four_mom_d_to_four_mom four_mom_d_to_r2_sp four_mom_d_to_r2_sp_b get need need_i ret].
  cbn [fm fmd set_fm set_fmd set_r2 set_r2b]. rewrite Hi.
  cbn [fm fmd set_fm set_fmd set_r2 set_r2b]. rewrite tensor_up', tensor_dn'. reflexivity.
Qed.
Lemma assign_four_mom_noi cv v (p : particle) : @fimag K = None ->
  snd (assign_four_mom cv v p) = Err TypeError /\ snd (assign_four_mom_d cv v p) = Err TypeError.
Proof.
  intros Hi. unfold assign_four_mom, assign_four_mom_d.
  cbv beta iota delta [bind modify four_mom_d_to_four_mom four_mom_to_four_mom_d four_mom_d_to_r2_sp
    get need need_i ret raise].
  cbn [fm fmd set_fm set_fmd]. rewrite Hi. auto.
Qed.

Lemma consistent_fm_mk ru rd lu ld (v : v4 K) i s : fimag = Some i ->
  ru = option_map raise_r rd -> lu = option_map raise_r ld ->
  consistent (mkP ru rd lu ld (slash_up i v) (slash_dn i v) (Some v) (Some (metric v)) s).
Proof.
  intros Hi Hr Hl. constructor; cbn [r2 r2b fm fmd r_u r_d l_u l_d]; auto using slash_dn_adj.
  split; [reflexivity|]. exists i; auto.
Qed.

Lemma step_r2 cv m p : consistent p -> consistent (fst (assign_r2_sp cv m p)).
Proof.
  intros [H1 H2 H3 H4]. rewrite assign_r2_sp_fst.
  eapply only_spinors_consistent; [apply spinors_from_r2_only; cbn; auto|].
  apply consistent_mk; auto.
Qed.
Lemma step_r2b cv m p : consistent p -> consistent (fst (assign_r2_sp_b cv m p)).
Proof.
  intros [H1 H2 H3 H4]. rewrite assign_r2_sp_b_fst.
  eapply only_spinors_consistent; [apply spinors_from_r2_only; cbn; auto|].
  rewrite <- (adj_adj m) at 2. apply consistent_mk; auto.
Qed.
Lemma step_fm cv v p : consistent p -> fimag <> @None K ->
  consistent (fst (assign_four_mom cv v p)).
Proof.
  intros [H1 H2 H3 H4] Hn. destruct fimag as [i|] eqn:Hi; [|congruence].
  rewrite (assign_four_mom_i cv v p i Hi).
  eapply only_spinors_consistent; [apply spinors_from_fm_only; cbn; auto|].
  apply consistent_fm_mk; auto.
Qed.
Lemma step_fmd cv v p : consistent p -> fimag <> @None K ->
  consistent (fst (assign_four_mom_d cv v p)).
Proof.
  intros [H1 H2 H3 H4] Hn. destruct fimag as [i|] eqn:Hi; [|congruence].
  rewrite (assign_four_mom_d_i cv v p i Hi).
  eapply only_spinors_consistent; [apply spinors_from_fm_only; cbn; auto|].
  rewrite <- (metric_metric v) at 4. apply consistent_fm_mk; auto.
Qed.

Lemma mT_adj (m : m2 K) : mT (adj m) = adj (mT m).
Proof. reflexivity. Qed.

(* angles_for_squares, closed form *)
Definition flip_l (s : option bool) (l r : v2 K) : v2 K := (* new l_d *)
  match s with Some true => vscale (- (1)) r | _ => r end.
Definition flip_r (s : option bool) (l r : v2 K) : v2 K :=
  match s with Some false => vscale (- (1)) l | _ => l end.
Lemma angles_for_squares_eq p l r : consistent p -> l_d p = Some l -> r_d p = Some r ->
  angles_for_squares p =
  (mkP (Some (raise_r (flip_r (spin p) l r))) (Some (flip_r (spin p) l r))
       (Some (raise_r (flip_l (spin p) l r))) (Some (flip_l (spin p) l r))
       (mT (r2 p)) (adj (mT (r2 p))) (fm_for (mT (r2 p))) (option_map metric (fm_for (mT (r2 p))))
       (spin p), Ok tt).
Proof.
  intros C. pose proof (cons_r2b _ C) as E. clear C.
  destruct p as [ru rd lu ld m mb f fd sp]; cbn [l_d r_d r2 r2b spin] in *. intros -> ->. subst mb.
  unfold angles_for_squares.
  cbv beta iota delta [bind get]. cbn [l_d r_d spin].
  destruct sp as [[|]|];
  cbv beta iota delta [modify sps_d_to_sps_u l_sp_d_to_l_sp_u r_sp_d_to_r_sp_u get need ret bind];
  cbn [r_d r_u l_u l_d r2 r2b fm fmd spin set_rd set_ru set_ld set_lu set_r2 set_r2b set_fm set_fmd];
  rewrite four_mom_from_r2b_eq; unfold with_fm;
  cbn [r_d r_u l_u l_d r2 r2b fm fmd spin set_rd set_ru set_ld set_lu set_r2 set_r2b set_fm set_fmd];
  rewrite mT_adj, adj_adj, LC_mv, LC_vmT; reflexivity.
Qed.
Lemma angles_for_squares_none p : consistent p -> (l_d p = None \/ r_d p = None) ->
  angles_for_squares p =
  (mkP (r_u p) (r_d p) (l_u p) (l_d p)
       (mT (r2 p)) (adj (mT (r2 p))) (fm_for (mT (r2 p))) (option_map metric (fm_for (mT (r2 p))))
       (spin p), Ok tt).
Proof.
  intros C. pose proof (cons_r2b _ C) as E. clear C.
  destruct p as [ru rd lu ld m mb f fd sp]; cbn [l_d r_d r2 r2b spin r_u l_u] in *. subst mb.
  intros H. unfold angles_for_squares.
  cbv beta iota delta [bind get]. cbn [l_d r_d spin].
  destruct ld as [l|]; [destruct rd as [r|]; [destruct H; discriminate|]|];
  cbv beta iota delta [modify ret bind];
  cbn [r_d r_u l_u l_d r2 r2b fm fmd spin set_rd set_ru set_ld set_lu set_r2 set_r2b set_fm set_fmd];
  rewrite four_mom_from_r2b_eq; unfold with_fm;
  cbn [r_d r_u l_u l_d r2 r2b fm fmd spin set_rd set_ru set_ld set_lu set_r2 set_r2b set_fm set_fmd];
  rewrite mT_adj, adj_adj; reflexivity.
Qed.

Lemma step_flip p : consistent p -> consistent (fst (angles_for_squares p)) /\ snd (angles_for_squares p) = Ok tt.
Proof.
  intros C. destruct (l_d p) as [l|] eqn:Hl; [destruct (r_d p) as [r|] eqn:Hr|].
  - rewrite (angles_for_squares_eq p l r); auto. split; [|reflexivity]. apply consistent_mk; reflexivity.
  - rewrite angles_for_squares_none by auto. split; [|reflexivity].
    apply consistent_mk; [apply (cons_r _ C) | apply (cons_l _ C)].
  - rewrite angles_for_squares_none by auto. split; [|reflexivity].
    apply consistent_mk; [apply (cons_r _ C) | apply (cons_l _ C)].
Qed.

Lemma step_ok o p : consistent p -> snd (do_op o p) = Ok tt -> consistent (fst (do_op o p)).
Proof.
  intros C H. destruct o; cbn [do_op] in *; auto using step_rd, step_ru, step_ld, step_lu, step_r2, step_r2b.
  - destruct (@fimag K) as [i|] eqn:Hi.
    + apply step_fm; auto; congruence.
    + pose proof (proj1 (assign_four_mom_noi cv v p Hi)); congruence.
  - destruct (@fimag K) as [i|] eqn:Hi.
    + apply step_fmd; auto; congruence.
    + pose proof (proj2 (assign_four_mom_noi cv v p Hi)); congruence.
  - apply step_flip; auto.
Qed.
Lemma step_any o p : consistent p -> fimag <> @None K -> consistent (fst (do_op o p)).
Proof.
  intros C H. destruct o; cbn [do_op] in *; auto using step_rd, step_ru, step_ld, step_lu, step_r2, step_r2b, step_fm, step_fmd.
  apply step_flip; auto.
Qed.

Lemma blank_pair : r_u (@blank K) = option_map raise_r (r_d blank) /\ l_u (@blank K) = option_map raise_r (l_d blank).
Proof. split; reflexivity. Qed.

Lemma new_spinors_eq (r l : v2 K) :
  init_spinors r l blank =
  (mkP (Some (raise_r r)) (Some r) (Some (raise_r l)) (Some l)
       (outer (raise_r l) (raise_r r)) (outer r l)
       (fm_for (outer (raise_r l) (raise_r r)))
       (option_map metric (fm_for (outer (raise_r l) (raise_r r)))) None, Ok tt).
Proof.
  unfold init_spinors. cbv beta iota delta [bind modify r_sp_d_to_r_sp_u get need ret].
  cbn [r_d set_rd blank]. rewrite LC_mv.
  rewrite (assign_l_sp_d_eq l _ r); reflexivity.
Qed.

Lemma constructed_consistent p : constructed p -> consistent p.
Proof.
  intros [r l | cv m q H | cv v q H].
  - unfold new_spinors. rewrite new_spinors_eq. cbn [fst]. rewrite (outer_adj r l).
    apply consistent_mk; reflexivity.
  - unfold new_r2 in H. rewrite assign_r2_sp_fst in H.
    pose proof (spinors_from_r2_only cv (mkP (r_u blank) (r_d blank) (l_u blank) (l_d blank) m (adj m)
     (fm_for m) (option_map metric (fm_for m)) (spin (@blank K))) eq_refl eq_refl) as O.
    destruct (spinors_from_r2 cv _) as [q' [u|e]]; [|discriminate]. inversion H; subst q'.
    cbn [fst] in O. eapply only_spinors_consistent; [exact O|]. apply consistent_mk; reflexivity.
  - unfold new_four_mom in H. destruct (@fimag K) as [i|] eqn:Hi.
    + rewrite (assign_four_mom_i cv v blank i Hi) in H.
      pose proof (spinors_from_fm_only cv (mkP (r_u blank) (r_d blank) (l_u blank) (l_d blank)
       (slash_up i v) (slash_dn i v) (Some v) (Some (metric v)) (spin (@blank K))) eq_refl eq_refl) as O.
      destruct (spinors_from_fm cv _) as [q' [u|e]]; [|discriminate]. inversion H; subst q'.
      cbn [fst] in O. eapply only_spinors_consistent; [exact O|]. apply consistent_fm_mk; auto.
    + pose proof (proj1 (assign_four_mom_noi cv v blank Hi)) as E.
      destruct (assign_four_mom cv v blank) as [q' [u|e]]; [discriminate E|discriminate H].
Qed.

Lemma run_consistent ops p q : consistent p -> run ops p = (q, Ok tt) -> consistent q.
Proof.
  revert p; induction ops as [|o ops IH]; cbn; intros p C H.
  - inversion H; subst; exact C.
  - pose proof (step_ok o p C) as S. destruct (do_op o p) as [p' [[]|e]]; [|inversion H].
    apply (IH p'); auto.
Qed.
Lemma run_all_consistent ops p : consistent p -> fimag <> @None K -> consistent (run_all ops p).
Proof.
  unfold run_all. revert p; induction ops as [|o ops IH]; cbn; intros p C Hn; auto using step_any.
Qed.

(* ---------- C02: spinors of a massless momentum ---------- *)

Lemma mdet_factor (m : m2 K) : mdet m = 0 -> m11 m <> 0 -> m00 m = m01 m * m10 m / m11 m.
Proof.
  intros H Hz. unfold mdet in H.
  assert (E : m00 m * m11 m = m01 m * m10 m).
  { transitivity (m00 m * m11 m - m01 m * m10 m + m01 m * m10 m); [ring|]. rewrite H; ring. }
  rewrite <- E. field; auto.
Qed.

Lemma spinors_from_r2_massless cv (p : particle) :
  r2b p = adj (r2 p) -> mdet (r2 p) = 0 -> m11 (r2 p) <> 0 ->
  (cv = Symmetric -> fsqrt (m11 (r2 p)) <> None) ->
  exists q, spinors_from_r2 cv p = (q, Ok tt) /\ reproduces q /\ r2 q = r2 p /\ r2b q = r2b p /\
            fm q = fm p /\ fmd q = fmd p /\ spin q = spin p.
Proof.
  intros Hb Hd Hz Hs. pose proof (mdet_factor _ Hd Hz) as H00.
  unfold spinors_from_r2, r2_sp_to_r_sp_d, r2_sp_to_l_sp_d, set_r_sp_d_from, set_l_sp_d_from.
  assert (Hzb : feqb (m11 (r2 p)) 0 = false) by (apply feqb_neq; auto).
  destruct cv.
  - destruct (fsqrt (m11 (r2 p))) as [y|] eqn:Es; [|specialize (Hs eq_refl); congruence].
    pose proof (fsqrt_ok K _ _ Es) as Hy.
    assert (Hyz : y <> 0) by (intros ->; apply Hz; rewrite <- Hy; ring).
    assert (Hyb : feqb y 0 = false) by (apply feqb_neq; auto).
    cbv beta iota delta [try_except bind get sqrtM ret raise lift divE modify r_sp_d_to_r_sp_u l_sp_d_to_l_sp_u need].
    cbn [r2 r_d r_u l_d l_u set_rd set_ru set_ld set_lu].
    repeat (rewrite ?Hzb, ?Es, ?Hyb; cbn [r2 r_d r_u l_d l_u set_rd set_ru set_ld set_lu]).
    eexists; split; [reflexivity|]. repeat split; try reflexivity.
    exists (V2 y (- m10 (r2 p) / y)), (V2 y (- m01 (r2 p) / y)). cbn.
    rewrite Hb. unfold adj.
    repeat split; try reflexivity; try (f_equal; apply v2_ext; unfold_vec; unfold LeviCivita, raise_r; cbn; field; auto).
    all: apply m2_ext; unfold_vec; unfold raise_r; cbn; rewrite ?H00, <- ?Hy; field; auto.
  - cbv beta iota delta [try_except bind get sqrtM ret raise lift divE modify r_sp_d_to_r_sp_u l_sp_d_to_l_sp_u need].
    cbn [r2 r_d r_u l_d l_u set_rd set_ru set_ld set_lu].
    repeat (rewrite ?Hzb; cbn [r2 r_d r_u l_d l_u set_rd set_ru set_ld set_lu]).
    eexists; split; [reflexivity|]. repeat split; try reflexivity.
    exists (V2 (m11 (r2 p)) (- m10 (r2 p))), (V2 1 (- m01 (r2 p) / m11 (r2 p))). cbn.
    rewrite Hb. unfold adj.
    repeat split; try reflexivity; try (f_equal; apply v2_ext; unfold_vec; unfold LeviCivita, raise_r; cbn; field; auto).
    all: apply m2_ext; unfold_vec; unfold raise_r; cbn; rewrite ?H00; field; auto.
Qed.

Lemma spinors_from_r2_zero cv (p : particle) : m11 (r2 p) = 0 ->
  match cv with
  | Symmetric => exists q, spinors_from_r2 cv p = (q, Ok tt) /\
      r_d q = None /\ r_u q = None /\ l_d q = None /\ l_u q = None
  | Asymmetric => snd (spinors_from_r2 cv p) = Err ZeroDivisionError
  end.
Proof.
  intros Hz. unfold spinors_from_r2, r2_sp_to_r_sp_d, r2_sp_to_l_sp_d, set_r_sp_d_from, set_l_sp_d_from.
  destruct cv; cbv beta iota delta [try_except bind get sqrtM ret raise lift divE modify r_sp_d_to_r_sp_u l_sp_d_to_l_sp_u need caught clear_spinors].
  - rewrite Hz, feqb_refl. eexists; split; [reflexivity|]. cbn; auto.
  - cbn [r2 r_d r_u l_d l_u set_rd set_ru set_ld set_lu]. rewrite Hz, feqb_refl. reflexivity.
Qed.

(* the four_mom block agrees with the r2_sp block on consistent data *)
Lemma spinors_from_fm_r2 cv p v i : fimag = Some i -> fm p = Some v -> r2 p = slash_up i v ->
  spinors_from_fm cv p = spinors_from_r2 cv p.
Proof.
  intros Hi Hv Hr.
  unfold spinors_from_fm, spinors_from_r2, try_except.
  assert (E1 : forall q, fm q = Some v -> r2 q = slash_up i v ->
     four_mom_to_r_sp_d cv q = r2_sp_to_r_sp_d cv q).
  { intros q Hq Hq2. unfold four_mom_to_r_sp_d, r2_sp_to_r_sp_d.
    cbv beta iota delta [bind get need need_i ret]. rewrite Hq, Hi, Hq2. cbn [slash_up m11 m10].
    f_equal; ring. }
  assert (E2 : forall q, fm q = Some v -> r2 q = slash_up i v ->
     four_mom_to_l_sp_d cv q = r2_sp_to_l_sp_d cv q).
  { intros q Hq Hq2. unfold four_mom_to_l_sp_d, r2_sp_to_l_sp_d.
    cbv beta iota delta [bind get need need_i ret]. rewrite Hq, Hi, Hq2. cbn [slash_up m11 m01].
    f_equal; ring. }
  unfold bind at 1 3. rewrite (E1 p Hv Hr).
  unfold r2_sp_to_r_sp_d; cbv beta iota delta [bind get].
  destruct (set_r_from_cases cv (m11 (r2 p)) (- m10 (r2 p)) p) as [[w ->]|[e [-> He]]]; [|reflexivity].
  cbv beta iota delta [r_sp_d_to_r_sp_u get bind need ret modify].
  cbn [r_d set_rd]. rewrite E2 by (cbn; auto).
  reflexivity.
Qed.

(* the state after a momentum assignment, before spinors, in all four variants *)
Lemma assign_mom_cases cv (p : particle) :
  (forall m, exists s, assign_r2_sp cv m p = spinors_from_r2 cv s /\ r2 s = m /\ r2b s = adj m) /\
  (forall m, exists s, assign_r2_sp_b cv m p = spinors_from_r2 cv s /\ r2 s = adj m /\ r2b s = m) /\
  (forall v i, fimag = Some i -> exists s, assign_four_mom cv v p = spinors_from_r2 cv s /\
       r2 s = slash_up i v /\ r2b s = slash_dn i v) /\
  (forall v i, fimag = Some i -> exists s, assign_four_mom_d cv v p = spinors_from_r2 cv s /\
       r2 s = slash_up i (metric v) /\ r2b s = slash_dn i (metric v)).
Proof.
  repeat split; intros.
  - rewrite assign_r2_sp_fst. eexists; split; [reflexivity|]. cbn; auto.
  - rewrite assign_r2_sp_b_fst. eexists; split; [reflexivity|]. cbn; auto.
  - rewrite (assign_four_mom_i cv v p i H).
    erewrite (spinors_from_fm_r2 cv _ v i H) by reflexivity.
    eexists; split; [reflexivity|]. cbn; auto.
  - rewrite (assign_four_mom_d_i cv v p i H).
    erewrite (spinors_from_fm_r2 cv _ (metric v) i H) by reflexivity.
    eexists; split; [reflexivity|]. cbn; auto.
Qed.

(* ---------- C04 ---------- *)
Lemma lsq_det p : r2b p = adj (r2 p) -> lsq p = mdet (r2 p).
Proof. intros H. unfold lsq. rewrite H. unfold adj. unfold_vec. field; apply two_nz. Qed.
Lemma mdet_adj (m : m2 K) : mdet (adj m) = mdet m.
Proof. unfold adj; unfold_vec; ring. Qed.
Lemma mdet_slash i v : fimag = Some i ->
  mdet (slash_up i v) = c0 v * c0 v - c1 v * c1 v - c2 v * c2 v - c3 v * c3 v.
Proof.
  intros Hi. pose proof (i_sq i Hi) as Hs. unfold slash_up; unfold_vec.
  match goal with |- ?l = _ => replace l with (c0 v * c0 v - c3 v * c3 v - (c1 v * c1 v - (i * i) * (c2 v * c2 v))) by ring end.
  rewrite Hs; ring.
Qed.
Lemma ldot_slash i v w : fimag = Some i ->
  mtr (mmul (slash_up i v) (slash_dn i w)) / 2 = c0 v * c0 w - c1 v * c1 w - c2 v * c2 w - c3 v * c3 w.
Proof.
  intros Hi. pose proof (i_sq i Hi) as Hs. unfold slash_up, slash_dn; unfold_vec.
  match goal with |- ?l = _ => replace l with (c0 v * c0 w - c3 v * c3 w - (c1 v * c1 w - (i * i) * (c2 v * c2 w))) by (field; apply two_nz) end.
  rewrite Hs; ring.
Qed.

(* ---------- statements used in Properties ---------- *)

Lemma reachable_consistent p : reachable p -> consistent p.
Proof. intros (p0 & ops & C & R). eapply run_consistent; eauto using constructed_consistent. Qed.

Lemma run_app ops1 ops2 p q : run ops1 p = (q, Ok tt) -> run (ops1 ++ ops2) p = run ops2 q.
Proof.
  revert p; induction ops1 as [|o ops IH]; cbn; intros p H.
  - inversion H; reflexivity.
  - destruct (do_op o p) as [p' [u|e]]; [apply IH; exact H|inversion H].
Qed.
Lemma reach_run p0 ops : constructed p0 -> snd (run ops p0) = Ok tt -> reachable (fst (run ops p0)).
Proof.
  intros C H. exists p0, ops. split; [exact C|]. destruct (run ops p0) as [q r]; cbn in *; subst; reflexivity.
Qed.
Lemma reach_con p0 : constructed p0 -> reachable p0.
Proof. intros C. exists p0, []. split; [exact C|reflexivity]. Qed.
Lemma reachable_step p o q : reachable p -> do_op o p = (q, Ok tt) -> reachable q.
Proof.
  intros (p0 & ops & C & R) H. exists p0, (ops ++ [o]). split; [exact C|].
  rewrite (run_app _ _ _ _ R). cbn. rewrite H. reflexivity.
Qed.

Lemma massless_outcomes cv p :
  (forall m, mdet m = 0 -> massless_outcome cv m (assign_r2_sp cv m p)) /\
  (forall m, mdet m = 0 -> massless_outcome cv (adj m) (assign_r2_sp_b cv m p)) /\
  (forall i v, fimag = Some i -> mink v v = 0 ->
     massless_outcome cv (slash_up i v) (assign_four_mom cv v p)) /\
  (forall i v, fimag = Some i -> mink v v = 0 ->
     massless_outcome cv (slash_up i (metric v)) (assign_four_mom_d cv v p)).
Proof.
  assert (G : forall s : particle, r2b s = adj (r2 s) -> mdet (r2 s) = 0 -> massless_outcome cv (r2 s) (spinors_from_r2 cv s)).
  { intros s Hb Hd. split.
    - intros Hz Hs. destruct (spinors_from_r2_massless cv s Hb Hd Hz Hs) as (q & E & R & E2 & E2b & _).
      exists q. rewrite E2, E2b, Hb. auto.
    - intros Hz. pose proof (spinors_from_r2_zero cv s Hz) as H. destruct cv; exact H. }
  destruct (assign_mom_cases cv p) as (A & B & C & D).
  assert (Hmm : forall v : v4 K, mink (metric v) (metric v) = mink v v).
  { intros v. unfold mink, metric; cbn. ring. }
  split; [|split; [|split]]; intros.
  - destruct (A m) as (s & E & E2 & E2b). rewrite E. rewrite <- E2 at 1. apply G; rewrite E2; auto.
  - destruct (B m) as (s & E & E2 & E2b). rewrite E, <- E2. apply G; rewrite E2, ?adj_adj, ?mdet_adj; auto.
  - destruct (C v i H) as (s & E & E2 & E2b). rewrite E, <- E2. apply G; rewrite E2.
    + rewrite E2b. apply slash_dn_adj.
    + rewrite (mdet_slash i v H). exact H0.
  - destruct (D v i H) as (s & E & E2 & E2b). rewrite E, <- E2. apply G; rewrite E2.
    + rewrite E2b. apply slash_dn_adj.
    + rewrite (mdet_slash i _ H). change (mink (metric v) (metric v) = 0). rewrite Hmm. exact H0.
Qed.

(* C03 *)
Lemma assign_spinor_spec p r l v : consistent p -> r_d p = Some r -> l_d p = Some l ->
  let good q := consistent q /\ lsq q = 0 /\ reproduces q /\ spin q = spin p in
  (exists q, assign_r_sp_d v p = (q, Ok tt) /\ r_d q = Some v /\ l_d q = l_d p /\ l_u q = l_u p /\ good q) /\
  (exists q, assign_r_sp_u v p = (q, Ok tt) /\ r_u q = Some v /\ l_d q = l_d p /\ l_u q = l_u p /\ good q) /\
  (exists q, assign_l_sp_d v p = (q, Ok tt) /\ l_d q = Some v /\ r_d q = r_d p /\ r_u q = r_u p /\ good q) /\
  (exists q, assign_l_sp_u v p = (q, Ok tt) /\ l_u q = Some v /\ r_d q = r_d p /\ r_u q = r_u p /\ good q).
Proof.
  intros C Hr Hl good.
  assert (Hru : r_u p = Some (raise_r r)) by (rewrite (cons_r _ C), Hr; reflexivity).
  assert (Hlu : l_u p = Some (raise_r l)) by (rewrite (cons_l _ C), Hl; reflexivity).
  assert (Z : forall q, consistent q -> reproduces q -> spin q = spin p -> good q).
  { intros q Cq Rq Sq. split; [auto|split; [|split; auto]]. rewrite (lsq_det q (cons_r2b _ Cq)).
    destruct Rq as (r' & l' & _ & _ & _ & E & _). rewrite E. unfold_vec. ring. }
  pose proof (step_rd v p C) as S1. pose proof (step_ru v p C) as S2.
  pose proof (step_ld v p C) as S3. pose proof (step_lu v p C) as S4.
  rewrite (assign_r_sp_d_eq v p l Hl Hlu) in *.
  rewrite (assign_r_sp_u_eq v p l Hl Hlu) in *.
  rewrite (assign_l_sp_d_eq v p r Hr Hru) in *.
  rewrite (assign_l_sp_u_eq v p r Hr Hru) in *.
  cbn [fst] in *.
  split; [|split; [|split]].
  - eexists; split; [reflexivity|]. cbn [r_d r_u l_d l_u]. rewrite Hl, Hlu. do 3 (split; [reflexivity|]). apply Z; auto.
    exists v, l. cbn. auto 10.
  - eexists; split; [reflexivity|]. cbn [r_d r_u l_d l_u]. rewrite Hl, Hlu. do 3 (split; [reflexivity|]). apply Z; auto.
    exists (V2 (- e1 v) (e0 v)), l. cbn [r_d r_u l_d l_u r2 r2b]. rewrite raise_lower. auto 10.
  - eexists; split; [reflexivity|]. cbn [r_d r_u l_d l_u]. rewrite Hr, Hru. do 3 (split; [reflexivity|]). apply Z; auto.
    exists r, v. cbn. auto 10.
  - eexists; split; [reflexivity|]. cbn [r_d r_u l_d l_u]. rewrite Hr, Hru. do 3 (split; [reflexivity|]). apply Z; auto.
    exists r, (V2 (- e1 v) (e0 v)). cbn [r_d r_u l_d l_u r2 r2b]. rewrite raise_lower. auto 10.
Qed.

(* C04 *)
Lemma mass_spec p : consistent p ->
  lsq p = mdet (r2 p) /\ lsq p = mdet (r2b p) /\
  (forall v, fm p = Some v -> lsq p = mink v v).
Proof.
  intros C. rewrite (lsq_det p (cons_r2b _ C)). split; [reflexivity|]. split.
  - rewrite (cons_r2b _ C). symmetry; apply mdet_adj.
  - intros v Hv. pose proof (cons_fm _ C) as H. rewrite Hv in H. destruct H as [_ (i & Hi & E & _)].
    rewrite E. apply mdet_slash; exact Hi.
Qed.
Lemma ldot_spec p q : consistent p -> consistent q ->
  ldot p q = ldot q p /\ ldot p p = lsq p /\
  (forall v w, fm p = Some v -> fm q = Some w -> ldot p q = mink v w).
Proof.
  intros C D. split; [|split; [reflexivity|]].
  - unfold ldot. rewrite (cons_r2b _ C), (cons_r2b _ D). unfold adj. unfold_vec. field; apply two_nz.
  - intros v w Hv Hw. pose proof (cons_fm _ C) as H. pose proof (cons_fm _ D) as H'.
    rewrite Hv in H. rewrite Hw in H'. destruct H as [_ (i & Hi & E & _)].
    destruct H' as [_ (j & Hj & _ & E')]. assert (i = j) by congruence; subst j.
    unfold ldot. rewrite E, E'. apply ldot_slash; exact Hi.
Qed.
Lemma ldot_linear p1 p2 q a b p : consistent p -> consistent p1 -> consistent p2 -> consistent q ->
  r2 p = madd (mscale a (r2 p1)) (mscale b (r2 p2)) ->
  ldot p q = a * ldot p1 q + b * ldot p2 q /\ ldot q p = a * ldot q p1 + b * ldot q p2.
Proof.
  intros C C1 C2 D E. split; unfold ldot.
  - rewrite E, (cons_r2b _ D). unfold adj. unfold_vec. field; apply two_nz.
  - rewrite (cons_r2b _ C), (cons_r2b _ C1), (cons_r2b _ C2), E. unfold adj. unfold_vec. field; apply two_nz.
Qed.

(* C05 *)
Lemma spinors_from_r2_r2 cv p : r2 (fst (spinors_from_r2 cv p)) = r2 p.
Proof.
  unfold spinors_from_r2, r2_sp_to_r_sp_d, r2_sp_to_l_sp_d, try_except.
  cbv beta iota delta [bind get].
  destruct (set_r_from_cases cv (m11 (r2 p)) (- m10 (r2 p)) p) as [[w ->]|[e [-> He]]].
  2:{ rewrite He. reflexivity. }
  cbv beta iota delta [r_sp_d_to_r_sp_u get bind need ret modify].
  cbn [r_d set_rd].
  match goal with |- context [set_l_sp_d_from cv ?x ?y ?q] =>
    destruct (set_l_from_cases cv x y q) as [[w' ->]|[e ->]] end.
  - reflexivity.
  - destruct (caught e); reflexivity.
Qed.
Lemma spinors_from_r2_result cv p :
  snd (spinors_from_r2 cv p) =
  match cv with
  | Symmetric => Ok tt
  | Asymmetric => if feqb (m11 (r2 p)) 0 then Err ZeroDivisionError else Ok tt
  end.
Proof.
  unfold spinors_from_r2, r2_sp_to_r_sp_d, r2_sp_to_l_sp_d, set_r_sp_d_from, set_l_sp_d_from.
  destruct cv; cbv beta iota delta [try_except bind get sqrtM ret raise lift divE modify r_sp_d_to_r_sp_u
    l_sp_d_to_l_sp_u need caught clear_spinors].
  - destruct (feqb (m11 (r2 p)) 0) eqn:Ez; [reflexivity|].
    destruct (fsqrt (m11 (r2 p))) as [y|] eqn:Es; [|reflexivity].
    assert (Hy : feqb y 0 = false).
    { apply feqb_neq. intros ->. apply fsqrt_ok in Es. apply feqb_neq in Ez. apply Ez.
      rewrite <- Es. ring. }
    rewrite Hy. cbn [r2 r_d r_u l_d l_u set_rd set_ru set_ld set_lu].
    rewrite Ez, Es, Hy. reflexivity.
  - cbn [r2 r_d r_u l_d l_u set_rd set_ru set_ld set_lu].
    destruct (feqb (m11 (r2 p)) 0); reflexivity.
Qed.
Lemma new_r2_spec cv m :
  (new_r2 cv m = Err ZeroDivisionError /\ cv = Asymmetric /\ m11 m = 0) \/
  ((cv = Symmetric \/ m11 m <> 0) /\ exists q, new_r2 cv m = Ok q /\ r2 q = m /\ constructed q).
Proof.
  pose proof (spinors_from_r2_result cv (mkP None None None None m (adj m) (fm_for m) (option_map metric (fm_for m)) None)) as R.
  pose proof (spinors_from_r2_r2 cv (mkP None None None None m (adj m) (fm_for m) (option_map metric (fm_for m)) None)) as R2.
  cbn [r2] in R, R2.
  assert (E : new_r2 cv m = match spinors_from_r2 cv (mkP None None None None m (adj m) (fm_for m) (option_map metric (fm_for m)) None)
     with (p, Ok _) => Ok p | (_, Err e) => Err e end).
  { unfold new_r2. rewrite assign_r2_sp_fst. reflexivity. }
  rewrite E. destruct (spinors_from_r2 cv _) as [q [[]|e]] eqn:S; cbn [snd fst] in *.
  - right. split.
    + destruct cv; [left; reflexivity|right]. destruct (feqb (m11 m) 0) eqn:Z; [discriminate|].
      apply feqb_neq; exact Z.
    + exists q. split; [reflexivity|]. split; [exact R2|]. apply (con_r2 cv m). exact E.
  - left. destruct cv; [discriminate|]. destruct (feqb (m11 m) 0) eqn:Z; [|discriminate].
    inversion R; subst. apply feqb_ok in Z. auto.
Qed.

Definition total (l : list particle) : m2 K := msum (map (fun p => r2 p) l).

Lemma madd_assoc (a b c : m2 K) : madd a (madd b c) = madd (madd a b) c.
Proof. mext; ring. Qed.
Lemma madd_0_l (a : m2 K) : madd mzero a = a.
Proof. mext; ring. Qed.
Lemma madd_0_r (a : m2 K) : madd a mzero = a.
Proof. mext; ring. Qed.
Lemma madd_comm (a b : m2 K) : madd a b = madd b a.
Proof. mext; ring. Qed.

Definition sumstep cv := fun (acc : result (operand K)) (q : particle) =>
    match acc with
    | Err e => Err e
    | Ok (ONum c) => rmap OPart (p_radd cv q (ONum c))
    | Ok (OPart p) => rmap OPart (p_add cv p (OPart q))
    end.
Lemma sum_from l : forall s, exists s', fold_left (sumstep Symmetric) l (Ok (OPart s)) = Ok (OPart s') /\
   r2 s' = madd (r2 s) (total l).
Proof.
  induction l as [|q l IH]; intros s; cbn [fold_left].
  - exists s. split; [reflexivity|]. unfold total; cbn. symmetry; apply madd_0_r.
  - unfold sumstep at 2. unfold p_add.
    destruct (new_r2_spec Symmetric (madd (r2 s) (r2 q))) as [(_ & H & _)|(_ & q' & E & E2 & _)]; [discriminate|].
    rewrite E. cbn [rmap]. destruct (IH q') as (s' & F & F2). exists s'. split; [exact F|].
    rewrite F2, E2. unfold total; cbn. symmetry; apply madd_assoc.
Qed.
Lemma p_sum_spec p l : exists s, p_sum Symmetric (p :: l) = Ok (OPart s) /\ r2 s = total (p :: l) /\
  (l = [] -> s = p).
Proof.
  change (p_sum Symmetric (p :: l)) with (fold_left (sumstep Symmetric) l (sumstep Symmetric (Ok (ONum 0)) p)).
  replace (sumstep Symmetric (Ok (ONum 0)) p) with (Ok (OPart p)).
  2:{ unfold sumstep, p_radd, p_add. rewrite feqb_refl. reflexivity. }
  destruct (sum_from l p) as (s & E & E2). exists s. split; [exact E|]. split; [exact E2|].
  intros ->. cbn in E. congruence.
Qed.

Lemma p_eqb_spec p q : p_eqb p q = true <-> r2 p = r2 q.
Proof. apply meqb_ok. Qed.
Lemma p_eqb_all_reps p q : consistent p -> consistent q -> p_eqb p q = true ->
  r2b p = r2b q /\ fm p = fm q /\ fmd p = fmd q.
Proof.
  intros C D H. apply p_eqb_spec in H. split; [rewrite (cons_r2b _ C), (cons_r2b _ D), H; reflexivity|].
  pose proof (cons_fm _ C) as A. pose proof (cons_fm _ D) as B.
  destruct (fm p) as [v|], (fm q) as [w|].
  - destruct A as [A1 (i & Hi & A2 & _)], B as [B1 (j & Hj & B2 & _)].
    assert (i = j) by congruence; subst j.
    assert (v = w).
    { rewrite <- (vec_slash_up i v Hi), <- (vec_slash_up i w Hi). congruence. }
    subst w. split; congruence.
  - destruct A as [_ (i & Hi & _)], B; congruence.
  - destruct B as [_ (i & Hi & _)], A; congruence.
  - destruct A, B. split; congruence.
Qed.

Lemma arithmetic_spec p q p0 c :
  (exists s, p_add Symmetric p (OPart q) = Ok s /\ r2 s = madd (r2 p) (r2 q) /\ constructed s) /\
  (exists s, p_sub Symmetric p (OPart q) = Ok s /\ r2 s = msub (r2 p) (r2 q) /\ constructed s) /\
  (exists s, p_mul Symmetric p c = Ok s /\ r2 s = mscale c (r2 p) /\ constructed s) /\
  (c <> 0 -> exists s, p_div Symmetric p c = Ok s /\ mscale c (r2 s) = r2 p /\ constructed s) /\
  (c = 0 -> p_div Symmetric p c = Err ZeroDivisionError) /\
  (exists s, p_neg Symmetric p0 p = Ok s /\ r2 s = mopp (r2 p)) /\
  (p_add Symmetric p (ONum 0) = Ok p /\ p_radd Symmetric p (ONum 0) = Ok p /\ p_sub Symmetric p (ONum 0) = Ok p) /\
  (c <> 0 -> p_add Symmetric p (ONum c) = Err AssertionError) /\
  (p_eqb p q = true <-> r2 p = r2 q).
Proof.
  assert (N : forall m : m2 K, exists s, new_r2 Symmetric m = Ok s /\ r2 s = m /\ constructed s).
  { intros m. destruct (new_r2_spec Symmetric m) as [(_ & H & _)|(_ & s & E)]; [discriminate|eauto]. }
  split; [apply N|]. split; [apply N|]. split.
  { destruct (N (mscale c (r2 p))) as (s & E & R). exists s. split; [|exact R].
    rewrite <- E. unfold p_mul. f_equal. mext; ring. }
  split.
  { intros Hc. unfold p_div. rewrite (proj2 (feqb_neq c 0) Hc).
    match goal with |- context [new_r2 _ ?m] => destruct (N m) as (s & E & R & Cs) end.
    exists s. split; [exact E|]. split; [|exact Cs]. rewrite R. mext; field; exact Hc. }
  split; [intros ->; unfold p_div; rewrite feqb_refl; reflexivity|].
  split.
  { unfold p_neg. rewrite assign_r2_sp_fst.
    match goal with |- context [spinors_from_r2 Symmetric ?x] =>
      pose proof (spinors_from_r2_result Symmetric x) as R; pose proof (spinors_from_r2_r2 Symmetric x) as R2;
      destruct (spinors_from_r2 Symmetric x) as [s [u|e]] end; cbn in R, R2; [|discriminate].
    exists s. split; [reflexivity|]. rewrite R2. mext; ring. }
  split; [unfold p_add, p_radd, p_sub, p_add; rewrite feqb_refl; auto|].
  split; [intros Hc; unfold p_add; rewrite (proj2 (feqb_neq c 0) Hc); reflexivity|].
  apply p_eqb_spec.
Qed.

Lemma hash_spec p q : consistent p -> consistent q -> p_eqb p q = true ->
  lsq p <> 0 \/ (r_d p = r_d q /\ l_d p = l_d q) -> p_hash p = p_hash q.
Proof.
  intros C D E H. apply p_eqb_spec in E. unfold p_hash.
  assert (L : lsq p = lsq q).
  { unfold lsq. rewrite (cons_r2b _ C), (cons_r2b _ D), E. reflexivity. }
  rewrite <- L, E. destruct (feqb (lsq p) 0) eqn:Z; [|reflexivity].
  apply feqb_ok in Z. destruct H as [H|[-> ->]]; [contradiction|reflexivity].
Qed.

End Thm.
