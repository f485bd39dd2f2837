(* Proofs for C60-C62. *)
From Coq Require Import Ascii String.
From Coq Require Import List ZArith Bool Lia Setoid Field.
From Verif Require Import Base Fld Particle ParticleSpec ParticleThm Index IndexThm Phase PhaseThm Compute ComputeSpec ComputeThm ComputeThm5 Symm SymmThm Str Gen GenThm Ideal IdealThm RatPoly RatFun Analytic AnalyticSpec.
Import ListNotations.
Import Compute.
Open Scope nat_scope.

(* ---- polynomials as expressions ---- *)
Section Hom.
Context {L : Fld}.
Open Scope fld_scope.
Notation F := (RatFun L).
Add Field Kan1 : (fth L).
Add Field Kan2 : (fth F).
Definition rc (x : L) : F := rconst x.
Definition rx : F := rvar.
Definition hom (p : list L) : F := horner (map rc p) rx.
Lemma hom_cons a p : hom (a :: p) = rc a + rx * hom p. Proof. reflexivity. Qed.
Lemma rc_add (x y : L) : rc (x + y) = rc x + rc y.
Proof.
  symmetry. eapply same; [eapply via; [apply vadd|apply addp_good; apply rf_good|apply addp_req; apply vconst]|apply vconst| | |].
  - apply addp_good; exact pone_nz.
  - exact pone_nz.
  - unfold req, addp. cbn [fst snd]. split; intros [|[|n]]; cbn; unfold coef; cbn; ring || (destruct n; cbn; ring).
Qed.
Lemma rc_mul (x y : L) : rc (x * y) = rc x * rc y. Proof. symmetry. apply rconst_mul. Qed.
Lemma rc_opp (x : L) : rc (- x) = - rc x. Proof. symmetry. apply rconst_opp. Qed.
Lemma rc_0 : rc 0 = 0. Proof. transitivity (rc (0 - 0)); [f_equal; ring|]. replace (0 - 0 : L) with (0 + - 0 : L) by ring. rewrite rc_add, rc_opp. ring. Qed.
Lemma rc_1 : rc 1 = 1. Proof. reflexivity. Qed.
Lemma hom_padd p q : hom (padd p q) = hom p + hom q.
Proof.
  revert q. induction p as [|a p IH]; intros [|b q]; cbn [padd]; try (change (hom []) with (0 : F); ring).
  rewrite !hom_cons, IH, rc_add. ring.
Qed.
Lemma hom_pscale (c : L) p : hom (pscale c p) = rc c * hom p.
Proof. induction p as [|a p IH]; [change (hom (pscale c [])) with (0 : F); change (hom []) with (0 : F); ring|]. change (pscale c (a :: p)) with (c * a :: pscale c p). rewrite !hom_cons, IH, rc_mul. ring. Qed.
Lemma hom_popp p : hom (popp p) = - hom p.
Proof. induction p as [|a p IH]; [change (hom (popp [])) with (0 : F); change (hom []) with (0 : F); ring|]. change (popp (a :: p)) with (- a :: popp p). rewrite !hom_cons, IH, rc_opp. ring. Qed.
Lemma hom_pmul p q : hom (pmul p q) = hom p * hom q.
Proof.
  induction p as [|a p IH]; [change (hom (pmul [] q)) with (0 : F); change (hom []) with (0 : F); ring|].
  change (pmul (a :: p) q) with (padd (pscale a q) (0 :: pmul p q)). rewrite hom_padd, hom_pscale, !hom_cons, IH, rc_0. ring.
Qed.
Lemma hom_rmk p : req (rf_pair (hom p)) (p, [1]).
Proof.
  induction p as [|a p IH]; [apply v0|]. rewrite hom_cons.
  assert (M : req (rf_pair (rx * hom p)) (0 :: p, [1])).
  { eapply via; [apply vmul|apply mulp_good; apply rf_good|]. eapply req_trans; [|apply mulp_req; [apply rmk_req, pone_nz|exact IH]|]; [apply mulp_good; exact pone_nz|].
    unfold req, mulp. cbn [fst snd]. rewrite single_mul. change (pmul [0; 1] p) with (padd (pscale 0 p) (0 :: padd (pscale 1 p) [0])). 
    constructor. intros n. assert (E : peq [1 * 1 : L] [1]) by (constructor; intros [|k]; cbn [coef nth]; [ring|reflexivity]). 
    transitivity (coef (padd (pscale 0 p) (0 :: padd (pscale 1 p) [0])) n).
    { apply pe. rewrite pmul_comm. apply pmul_1_l. }
    transitivity (coef (0 :: p) n).
    { rewrite coef_padd, coef_pscale. destruct n as [|n]; [rewrite !coef_0; ring|]. rewrite !coef_cons, coef_padd, coef_pscale. destruct n as [|n]; [change (coef [0] 0) with (0 : L); ring|]. change (coef [0] (S n)) with (coef [] n : L). rewrite coef_nil. ring. }
    symmetry. apply pe. rewrite E, pmul_comm. apply pmul_1_l. }
  eapply via; [apply vadd|apply addp_good; apply rf_good|]. eapply req_trans; [|apply addp_req; [apply vconst|exact M]|]; [apply addp_good; exact pone_nz|].
  unfold req, addp. cbn [fst snd]. assert (E : forall q : list L, peq (pmul q [1]) q) by (intros q; rewrite pmul_comm; apply pmul_1_l). rewrite !E.
  constructor. intros n. rewrite coef_padd. destruct n as [|n]; [rewrite !coef_0; ring|]. rewrite !coef_cons, coef_nil. ring.
Qed.
Lemma hom_inj p q : hom p = hom q -> peq p q.
Proof.
  intros E. assert (A := hom_rmk p). assert (B := hom_rmk q). rewrite E in A.
  assert (C : req (p, [1]) (q, [1])) by (eapply req_trans; [apply rf_good|apply req_sym; exact A|exact B]).
  unfold req in C. cbn [fst snd] in C. assert (E' : forall q : list L, peq (pmul q [1]) q) by (intros x; rewrite pmul_comm; apply pmul_1_l). rewrite !E' in C. exact C.
Qed.
End Hom.

Section Half.
Context {K : Fld}.
Add Field Kan6 : (fth K).
Lemma half_two (x y : K) : (x / 2 * (2 * y) = x * y)%fld.
Proof. field. apply two_nz. Qed.
End Half.
(* ---- inserting a number for one symbol ---- *)
Section RfAt.
Context {L K : Fld} (R : L -> K -> Prop) (RR : ring_rel L K R) (t : K).
Open Scope fld_scope.
Add Field Kan3 : (fth L).
Add Field Kan4 : (fth K).
Add Field Kan5 : (fth (RatFun L)).
Notation R2 := (Forall2 R).
Lemma horner_peval (p : list K) x : horner p x = peval p x.
Proof. induction p; cbn; congruence. Qed.
Lemma R_opp (x : L) (y : K) : R x y -> R (- x) (- y).
Proof. intros A. replace (- x) with (0 - x) by ring. replace (- y) with (0 - y) by ring. apply (rr_sub _ _ _ RR); [apply (rr_0 _ _ _ RR)|exact A]. Qed.
Lemma R2_padd p p' : R2 p p' -> forall q q', R2 q q' -> R2 (padd p q) (padd p' q').
Proof.
  induction 1 as [|a a' p p' A P IH]; intros q q' Q; [destruct Q; cbn [padd]; [constructor|constructor; assumption]|].
  destruct Q as [|b b' q q' B Q]; cbn [padd]; constructor; auto. apply (rr_add _ _ _ RR); assumption.
Qed.
Lemma R2_pscale (c : L) (c' : K) p p' : R c c' -> R2 p p' -> R2 (pscale c p) (pscale c' p').
Proof. intros C P. unfold pscale. induction P; cbn [map]; constructor; auto. apply (rr_mul _ _ _ RR); assumption. Qed.
Lemma R2_popp p p' : R2 p p' -> R2 (popp p) (popp p').
Proof. intros P. unfold popp. induction P; cbn [map]; constructor; auto. apply R_opp; assumption. Qed.
Lemma R2_pmul p p' q q' : R2 p p' -> R2 q q' -> R2 (pmul p q) (pmul p' q').
Proof.
  intros P Q. induction P as [|a a' p p' A P IH]; [constructor|].
  change (R2 (padd (pscale a q) (0 :: pmul p q)) (padd (pscale a' q') (0 :: pmul p' q'))).
  apply R2_padd; [apply R2_pscale; assumption|]. constructor; [apply (rr_0 _ _ _ RR)|exact IH].
Qed.
Lemma R2_one : R2 [1] [1]. Proof. constructor; [apply (rr_1 _ _ _ RR)|constructor]. Qed.
Lemma at_intro f (y : K) n d n' d' : R2 n n' -> R2 d d' -> f * hom d = hom n -> peval d' t <> 0 -> y * peval d' t = peval n' t -> rf_at R t f y.
Proof. intros A B C D E. exists n, d, n', d'. rewrite !horner_peval. auto. Qed.
Lemma at_elim f (y : K) : rf_at R t f y -> exists n d n' d', R2 n n' /\ R2 d d' /\ f * hom d = hom n /\ peval d' t <> 0 /\ y * peval d' t = peval n' t.
Proof. intros (n & d & n' & d' & A & B & C & D & E). rewrite !horner_peval in *. exists n, d, n', d'. auto. Qed.
Lemma at_poly p p' : R2 p p' -> rf_at R t (hom p) (peval p' t).
Proof.
  intros P. apply (at_intro _ _ p [1] p' [1]); [exact P|exact R2_one| | |].
  - rewrite hom_cons, rc_1. change (hom []) with (0 : RatFun L). ring.
  - cbn [peval]. intros E. apply (f1_nz (K := K)). rewrite <- E. ring.
  - cbn [peval]. ring.
Qed.
Lemma at_const (x : L) (y : K) : R x y -> rf_at R t (rc x) y.
Proof.
  intros A. replace (rc x) with (hom [x]) by (rewrite hom_cons; change (hom []) with (0 : RatFun L); ring).
  replace y with (peval [y] t) by (cbn [peval]; ring). apply at_poly. constructor; [exact A|constructor].
Qed.
Lemma at_var : rf_at R t rx t.
Proof.
  replace rx with (hom [0; 1] : RatFun L) by (rewrite !hom_cons, rc_0, rc_1; change (hom []) with (0 : RatFun L); ring).
  pose proof (at_poly [0; 1] [0; 1]) as A. replace (peval [0; 1] t) with t in A by (cbn [peval]; ring). apply A.
  constructor; [apply (rr_0 _ _ _ RR)|exact R2_one].
Qed.
Lemma at_fun : functional R -> functional (rf_at R t).
Proof.
  intros Fu f y1 y2 A B. apply at_elim in A. apply at_elim in B. destruct A as (n & d & n' & d' & N & D & E & Z & V). destruct B as (m & e & m' & e' & M & D2 & E2 & Z2 & V2).
  assert (X : peq (pmul n e) (pmul m d)). { apply hom_inj. rewrite !hom_pmul, <- E, <- E2. ring. }
  assert (X' : peq (pmul n' e') (pmul m' d')).
  { assert (Tr : forall p p' q q', R2 p p' -> R2 q q' -> peq p q -> peq p' q').
    { clear - Fu RR. intros p p' q q' P Q E. constructor. intros k. assert (C : forall p p' k, R2 p p' -> R (coef p k) (coef p' k)).
      { clear - RR. intros p p' k P. revert k. induction P as [|a a' p p' A P IH]; intros k; [rewrite !coef_nil; apply (rr_0 _ _ _ RR)|]. destruct k; [exact A|]. rewrite !coef_cons. apply IH. }
      apply (Fu (coef p k)); [apply C, P|]. rewrite (pe _ _ E k). apply C, Q. }
    eapply Tr; [| |exact X]; apply R2_pmul; assumption. }
  apply (peval_ext _ _ t) in X'. rewrite !peval_pmul, <- V, <- V2 in X'.
  assert (G : (y1 - y2) * (peval d' t * peval e' t) = 0). { transitivity (y1 * peval d' t * peval e' t - y2 * peval e' t * peval d' t); [ring|]. rewrite X'. ring. }
  assert (NZ : peval d' t * peval e' t <> 0) by (apply nz_mul; assumption).
  assert (G2 : y1 - y2 = 0). { transitivity ((y1 - y2) * (peval d' t * peval e' t) / (peval d' t * peval e' t)); [field; auto|]. rewrite G. field; auto. }
  transitivity ((y1 - y2) + y2); [ring|rewrite G2; ring].
Qed.
Lemma hom_2 : (2 : RatFun L) = hom [2 : L].
Proof. rewrite hom_cons. change (hom []) with (0 : RatFun L). transitivity (rc (1 + 1) : RatFun L); [rewrite rc_add, rc_1; ring|]. replace (1 + 1 : L) with (2 : L) by ring. ring. Qed.
Lemma at_ring : ring_rel (RatFun L) K (rf_at R t).
Proof.
  constructor.
  - rewrite <- rc_0. apply at_const, (rr_0 _ _ _ RR).
  - rewrite <- rc_1. apply at_const, (rr_1 _ _ _ RR).
  - intros x y x' y' A B. apply at_elim in A. apply at_elim in B. destruct A as (n & d & n' & d' & N & D & E & Z & V). destruct B as (m & e & m' & e' & M & D2 & E2 & Z2 & V2).
    apply (at_intro _ _ (padd (pmul n e) (pmul m d)) (pmul d e) (padd (pmul n' e') (pmul m' d')) (pmul d' e')).
    + apply R2_padd; apply R2_pmul; assumption.
    + apply R2_pmul; assumption.
    + rewrite hom_padd, !hom_pmul, <- E, <- E2. ring.
    + rewrite peval_pmul. apply nz_mul; assumption.
    + rewrite peval_padd, !peval_pmul, <- V, <- V2. ring.
  - intros x y x' y' A B. apply at_elim in A. apply at_elim in B. destruct A as (n & d & n' & d' & N & D & E & Z & V). destruct B as (m & e & m' & e' & M & D2 & E2 & Z2 & V2).
    apply (at_intro _ _ (padd (pmul n e) (popp (pmul m d))) (pmul d e) (padd (pmul n' e') (popp (pmul m' d'))) (pmul d' e')).
    + apply R2_padd; [|apply R2_popp]; apply R2_pmul; assumption.
    + apply R2_pmul; assumption.
    + rewrite hom_padd, hom_popp, !hom_pmul, <- E, <- E2. ring.
    + rewrite peval_pmul. apply nz_mul; assumption.
    + rewrite peval_padd, peval_popp, !peval_pmul, <- V, <- V2. ring.
  - intros x y x' y' A B. apply at_elim in A. apply at_elim in B. destruct A as (n & d & n' & d' & N & D & E & Z & V). destruct B as (m & e & m' & e' & M & D2 & E2 & Z2 & V2).
    apply (at_intro _ _ (pmul n m) (pmul d e) (pmul n' m') (pmul d' e')).
    + apply R2_pmul; assumption.
    + apply R2_pmul; assumption.
    + rewrite !hom_pmul, <- E, <- E2. ring.
    + rewrite peval_pmul. apply nz_mul; assumption.
    + rewrite !peval_pmul, <- V, <- V2. ring.
  - intros x x' A. apply at_elim in A. destruct A as (n & d & n' & d' & N & D & E & Z & V).
    assert (T : R2 [2] [2]). { constructor; [|constructor]. replace (2 : L) with (1 + 1 : L) by ring. replace (2 : K) with (1 + 1 : K) by ring. apply (rr_add _ _ _ RR); apply (rr_1 _ _ _ RR). }
    apply (at_intro _ _ n (pmul [2] d) n' (pmul [2] d')); [exact N|apply R2_pmul; assumption| | |].
    + rewrite hom_pmul, <- hom_2, <- E. apply half_two.
    + rewrite peval_pmul. apply nz_mul; [|exact Z]. cbn [peval]. intros E0. apply (two_nz (K := K)). rewrite <- E0. ring.
    + rewrite peval_pmul, <- V. cbn [peval]. field. apply two_nz.
Qed.
End RfAt.

(* ---- inserting numbers for all symbols ---- *)
Section Subst.
Context {K0 K : Fld} (R0 : K0 -> K -> Prop) (RR0 : ring_rel K0 K R0) (v : nat -> K).
Lemma subst_ring m : ring_rel (tower K0 m) K (subst R0 v m).
Proof. induction m as [|m IH]; [exact RR0|]. cbn [tower subst]. apply at_ring, IH. Qed.
Lemma subst_fun m : functional R0 -> functional (subst R0 v m).
Proof. intros Fu. induction m as [|m IH]; [exact Fu|]. cbn [tower subst]. apply at_fun; [apply subst_ring|exact IH]. Qed.
Lemma subst_const m x y : R0 x y -> subst R0 v m (tconst m x) y.
Proof. intros A. induction m as [|m IH]; [exact A|]. cbn [tower subst tconst]. apply (at_const _ (subst_ring m)). exact IH. Qed.
Lemma subst_sym m j : (j < m)%nat -> subst R0 v m (sym m j) (v j).
Proof.
  induction m as [|m IH]; intros J; [lia|]. cbn [tower subst sym]. destruct (Nat.eqb_spec j m) as [->|N].
  - apply (at_var _ (subst_ring m)).
  - apply (at_const _ (subst_ring m)). apply IH. lia.
Qed.
End Subst.

(* ---- points ---- *)
Lemma F2_nth {A B} (P : A -> B -> Prop) : forall l l', length l = length l' -> (forall k a b, nth_error l k = Some a -> nth_error l' k = Some b -> P a b) -> Forall2 P l l'.
Proof.
  induction l as [|a l IH]; intros [|b l'] E N; try discriminate E; constructor.
  - apply (N 0); reflexivity.
  - apply IH; [now injection E|]. intros k. apply (N (S k)).
Qed.
Section Built.
Context {K : Fld}.
Implicit Types (r l : v2 K).
Definition built r l sp : particle K :=
  mkP (Some (raise_r r)) (Some r) (Some (raise_r l)) (Some l) (outer (raise_r l) (raise_r r)) (outer r l)
      (fm_for (outer (raise_r l) (raise_r r))) (option_map metric (fm_for (outer (raise_r l) (raise_r r)))) sp.
Lemma built_reproduces r l sp : reproduces (built r l sp).
Proof. exists r, l. repeat split. Qed.
Lemma built_consistent r l sp : consistent (built r l sp).
Proof. unfold built. replace (outer r l) with (adj (outer (raise_r l) (raise_r r))); [apply consistent_mk; reflexivity|]. rewrite <- outer_adj'. apply adj_adj. Qed.
Lemma built_of (p : particle K) r l : reproduces p -> consistent p -> r_d p = Some r -> l_d p = Some l -> p = built r l (spin p).
Proof.
  intros (r' & l' & E1 & E2 & B & A & U & V) C R L. rewrite R in E1. rewrite L in E2. injection E1 as <-. injection E2 as <-.
  destruct C as [_ Fm _ _]. destruct p as [ru rd lu ld m mb f fd sp]. cbn in *. subst. unfold built. f_equal.
  - unfold fm_for. destruct f as [v|]; [|destruct Fm as [_ ->]; reflexivity]. destruct Fm as (_ & i & Ei & E & _). rewrite Ei. cbn [option_map]. f_equal. rewrite E. symmetry. apply vec_slash_up; assumption.
  - destruct f as [v|]; [|destruct Fm as [-> Fi]; unfold fm_for; rewrite Fi; reflexivity]. destruct Fm as (-> & i & Ei & E & _). unfold fm_for. rewrite Ei. cbn [option_map]. f_equal. rewrite E, vec_slash_up by assumption. reflexivity.
Qed.
End Built.
