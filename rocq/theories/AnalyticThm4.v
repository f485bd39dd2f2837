(* Proofs for C61: when the generators exist. *)
From Coq Require Import Ascii String.
From Coq Require Import List ZArith Bool Lia Setoid Field.
From Verif Require Import Base Fld Particle ParticleSpec ParticleThm Index IndexThm Phase PhaseThm Compute ComputeSpec ComputeThm ComputeThm5 Symm SymmThm Str Gen GenThm Ideal IdealThm RatPoly RatFun Analytic AnalyticSpec AnalyticThm AnalyticThm2 AnalyticThm3.
Import ListNotations.
Import Compute.
Open Scope nat_scope.

Section Dot.
Context {L : Fld}.
Add Field Kan9 : (fth L).
Lemma self_dot (r : v2 L) : vdot (raise_r r) r = 0%fld.
Proof. unfold vdot, raise_r. cbn [e0 e1]. ring. Qed.
End Dot.
Section EqRel.
Context {K : Fld}.
Lemma eq_ring : ring_rel K K eq.
Proof. constructor; intros; subst; reflexivity. Qed.
Lemma eq_fun : functional (@eq K). Proof. intros x y y' <- <-. reflexivity. Qed.
End EqRel.
Section Number.
Context {K : Fld}.
Lemma pair_const {L : Fld} (c d : L) H : Rf ([c], [d]) H = rconst c.
Proof.
  apply rf_ext. cbn [rf_pair]. assert (D : d = 1%fld).
  { pose proof H as H'. unfold rf_ok in H'. rewrite !andb_true_iff, !feqb_ok, !leqb_ok in H'. cbn [fst snd] in H'. destruct H' as [[[_ Nd] Ld] _]. unfold lead, size in Ld. rewrite Nd in Ld. exact Ld. }
  subst d. apply req_sym, vconst.
Qed.
Lemma number_const m (x : tower K m) : is_number m x = true -> exists c, x = tconst m c.
Proof.
  induction m as [|m IH]; intros H; [exists x; reflexivity|]. cbn [is_number] in H. destruct x as [[n d] Hx]. cbn [rf_pair] in H.
  destruct n as [|c n].
  - exists 0%fld. cbn [tconst]. apply rf_ext. cbn [rf_pair].
    assert (Z : tconst m (0%fld : K) = 0%fld). { clear. induction m as [|m IH]; [reflexivity|]. cbn [tconst tower]. rewrite IH. apply rc_0. }
    rewrite Z. change (rconst 0%fld) with (rc 0%fld : RatFun (tower K m)). rewrite rc_0. eapply req_trans; [| |apply req_sym, v0]; [exact pone_nz|]. unfold req. cbn [fst snd]. rewrite !pmul_nil. reflexivity.
  - destruct n as [|? n]; [|discriminate H]. destruct d as [|d [|? ?]]; try discriminate H. destruct (IH c H) as (c' & ->). exists c'. cbn [tconst]. apply pair_const.
Qed.
Lemma zero_pair {L : Fld} : rf_pair (0%fld : RatFun L) = ([], [1%fld]).
Proof. apply reduced_unique; [apply rf_is|apply one_ok|apply v0]. Qed.
Lemma number_zero m : is_number m (0%fld : tower K m) = true.
Proof. destruct m as [|m]; [reflexivity|]. cbn [is_number tower]. rewrite zero_pair. reflexivity. Qed.
End Number.

Lemma coords_entries {K : Fld} (v : val K) : coords v = entries v. Proof. destruct v; reflexivity. Qed.
Section Exists.
Context {K : Fld}.
Add Field Kan8 : (fth K).
Lemma F2_nth_l {A B} (P : A -> B -> Prop) l l' k b : Forall2 P l l' -> nth_error l' k = Some b -> exists a, nth_error l k = Some a /\ P a b.
Proof. intros H. revert k. induction H as [|x y l l' X H IH]; intros [|k] E; cbn in *; try discriminate; [injection E as <-; eauto|eauto]. Qed.
Lemma F2_nth_r {A B} (P : A -> B -> Prop) l l' k a : Forall2 P l l' -> nth_error l k = Some a -> exists b, nth_error l' k = Some b /\ P a b.
Proof. intros H. revert k. induction H as [|x y l l' X H IH]; intros [|k] E; cbn in *; try discriminate; [injection E as <-; eauto|eauto]. Qed.
Lemma point_spinors n (t : ps K) : point n t -> exists d, analytical_subs_d t = Ok d.
Proof. intros [_ R]. apply subs_exists. eapply Forall_impl; [|exact R]. intros p (r & l & A & B & _). split; congruence. Qed.
(* an expression with two different values is no number *)
Lemma not_number m (x : tower K m) v v' y y' : subst eq v m x y -> subst eq v' m x y' -> y <> y' -> is_number m x = false.
Proof.
  intros A B N. destruct (is_number m x) eqn:E; [|reflexivity]. exfalso. apply number_const in E. destruct E as (c & ->). apply N.
  transitivity c; [|symmetry]; eapply subst_fun; try apply eq_ring; try apply eq_fun; try eassumption; apply subst_const; try apply eq_ring; reflexivity.
Qed.
Lemma as_poly_all {m} (l : list (tower K m)) : (forall x, In x l -> is_number m x = false) -> rmapM as_poly l = Ok l.
Proof. induction l as [|x l IH]; intros H; [reflexivity|]. cbn [rmapM]. unfold as_poly at 1. rewrite H by (left; reflexivity). cbn [rbind]. rewrite IH by (intros y I; apply H; right; exact I). reflexivity. Qed.
Lemma num_opp (x y : K) : (2 * 2 * x = 2 * 2 * y)%fld -> x = y.
Proof.
  intros E. assert (X : (x - y = 0)%fld). { apply four_zero. transitivity (2 * 2 * x - 2 * 2 * y)%fld; [ring|]. rewrite E. ring. }
  transitivity (x - y + y)%fld; [ring|]. rewrite X. ring.
Qed.
Lemma none_kept (s t : ps K) : forall j x y, kept None j -> nth_error (components s) j = Some x -> nth_error (components t) j = Some y -> x = y.
Proof. intros j x y (l & X & _). discriminate X. Qed.
Lemma cov_polys (s : ps K) S e : make_analytical_d None s = Ok S -> varies K (length s) e ->
  exists v, compute S e = Ok v /\ rmapM as_poly (map (fun x => (2 * 2 * x)%fld) (entries v)) = Ok (map (fun x => (2 * 2 * x)%fld) (entries v)).
Proof.
  intros E (t & v & Pt & Ev & Va). destruct (point_spinors _ _ Pt) as (d & D). destruct Pt as [Lt Rt].
  assert (P := make_prel eq eq_ring s None S t d E Lt Rt D (none_kept s t)).
  destruct (rrel_ok' _ _ _ _ (rel_compute _ (subst_ring eq eq_ring (given d) _) _ _ P e) Ev) as (V & EV & RV). exists V. split; [exact EV|].
  apply as_poly_all. intros x I. apply in_map_iff in I. destruct I as (x0 & <- & I). apply In_nth_error in I. destruct I as (k & I).
  destruct (F2_nth_r _ _ _ _ _ (rel_entries _ _ _ RV) I) as (y & Iy & Ry). rewrite <- coords_entries in Iy. destruct (Va k y Iy) as (t' & v' & y' & Pt' & Ev' & Iy' & N).
  destruct (point_spinors _ _ Pt') as (d' & D'). destruct Pt' as [Lt' Rt']. assert (P' := make_prel eq eq_ring s None S t' d' E Lt' Rt' D' (none_kept s t')).
  destruct (rrel_ok _ _ _ _ (rel_compute _ (subst_ring eq eq_ring (given d') _) _ _ P' e) EV) as (v2 & Ev2 & RV2). rewrite Ev' in Ev2. injection Ev2 as <-.
  rewrite coords_entries in Iy'. destruct (F2_nth_l _ _ _ _ _ (rel_entries _ _ _ RV2) Iy') as (x1 & Ix1 & Rx1). rewrite I in Ix1. injection Ix1 as <-.
  assert (Q : forall w z, subst eq w (4 * length s) x0 z -> subst eq w (4 * length s) (2 * 2 * x0)%fld (2 * 2 * z)%fld).
  { intros w z X. assert (RR := subst_ring eq eq_ring w (4 * length s)). assert (T : subst eq w (4 * length s) 2%fld 2%fld) by (apply (rr_add _ _ _ RR); apply (rr_1 _ _ _ RR)). repeat apply (rr_mul _ _ _ RR); assumption. }
  apply (not_number _ _ (given d) (given d') (2 * 2 * y)%fld (2 * 2 * y')%fld); [apply Q, Ry|apply Q, Rx1|]. intros X. apply N. apply num_opp. exact X.
Qed.
(* the total momentum is no number *)
Definition zero_leg : particle K := built (V2 0 0)%fld (V2 0 0)%fld None.
Definition one_leg : particle K := built (V2 1 1)%fld (V2 1 1)%fld None.
Lemma zeros_total n : total_mom (repeat zero_leg n) = mzero.
Proof.
  unfold total_mom. induction n as [|n IH]; [reflexivity|]. cbn [repeat map]. unfold msum in *. cbn [fold_right]. rewrite IH. unfold zero_leg, built, outer, raise_r, madd, mzero. cbn [r2 e0 e1 m00 m01 m10 m11]. f_equal; ring.
Qed.
Lemma zeros_point n : point n (repeat zero_leg n).
Proof. split; [apply repeat_length|]. apply Forall_forall. intros p I. apply repeat_spec in I. subst p. apply built_reproduces. Qed.
Lemma total_polys (s : ps K) S : s <> [] -> make_analytical_d None s = Ok S -> rmapM as_poly (entries (VMat (total_mom S))) = Ok (entries (VMat (total_mom S))).
Proof.
  intros Ne E. apply as_poly_all. set (n := length (tl s)).
  assert (Rel : forall t : ps K, point (length s) t -> exists w, m2rel (subst eq w (4 * length s)) (total_mom S) (total_mom t)).
  { intros t Pt. destruct (point_spinors _ _ Pt) as (d & D). destruct Pt as [Lt Rt]. assert (P := make_prel eq eq_ring s None S t d E Lt Rt D (none_kept s t)). exists (given d).
    unfold total_mom. apply (rel_msum _ (subst_ring eq eq_ring (given d) (4 * length s))). clear - P. induction P as [|a b l l' X P IH]; cbn [map]; constructor; [apply (prel_2 _ _ _ X)|exact IH]. }
  assert (Ls : length s = Datatypes.S n) by (destruct s; [contradiction|reflexivity]).
  destruct (Rel (repeat zero_leg (length s)) (zeros_point _)) as (w & Rw). rewrite zeros_total in Rw.
  destruct (Rel (one_leg :: repeat zero_leg n)) as (w' & Rw').
  { rewrite Ls. split; [cbn [length]; rewrite repeat_length; reflexivity|]. constructor; [apply built_reproduces|apply zeros_point]. }
  assert (T : total_mom (one_leg :: repeat zero_leg n) = M2 f1 (fopp f1) (fopp f1) f1).
  { assert (Z := zeros_total n). unfold total_mom, msum in *. cbn [map fold_right]. rewrite Z. unfold one_leg, built, outer, raise_r, madd, mzero. cbn [r2 e0 e1 m00 m01 m10 m11]. f_equal; ring. }
  rewrite T in Rw'. destruct Rw as (A1 & A2 & A3 & A4), Rw' as (B1 & B2 & B3 & B4). cbn [mzero m00 m01 m10 m11] in *.
  assert (N1 : (0 : K)%fld <> 1%fld) by (intros X; apply (f1_nz (K := K)); symmetry; exact X).
  assert (N2 : (f0 : K) <> fopp f1). { intros X. apply N1. transitivity (fopp (fopp f1) : K); [rewrite <- X|]; ring. }
  intros x I. cbn [entries In] in I. destruct I as [<-|[<-|[<-|[<-|[]]]]].
  - exact (not_number _ _ _ _ _ _ A1 B1 N1).
  - exact (not_number _ _ _ _ _ _ A2 B2 N2).
  - exact (not_number _ _ _ _ _ _ A3 B3 N2).
  - exact (not_number _ _ _ _ _ _ A4 B4 N1).
Qed.
Lemma gens_exist (s : ps K) covs mc : s <> [] -> Forall has_spinors s -> Forall (varies K (length s)) covs -> exists gs, lips_generators s covs mc = Ok gs.
Proof.
  intros Ne Hs Hv. destruct (make_ok s None Hs) as (S & E). { cbn [mask_of]. rewrite repeat_length. lia. }
  unfold lips_generators. rewrite E. cbn [rbind].
  destruct (rmapM_ok_all (fun e => rbind (compute S e) (fun v => rmapM as_poly (map (fun x => (2 * 2 * x)%fld) (entries v)))) covs) as (gg & ->).
  { intros e I. rewrite Forall_forall in Hv. destruct (cov_polys s S e E (Hv e I)) as (v & -> & X). cbn [rbind]. rewrite X. eauto. }
  cbn [rbind]. destruct mc; [rewrite (total_polys s S Ne E)|]; cbn [rbind]; eauto.
Qed.
Lemma gens_constant (s : ps K) mc : s <> [] -> Forall has_spinors s -> lips_generators s [IA2 1 1] mc = Err OtherException.
Proof.
  intros Ne Hs. destruct (make_ok s None Hs) as (S & E). { cbn [mask_of]. rewrite repeat_length. lia. }
  destruct (make_built _ _ _ E) as (L & R & So). unfold lips_generators. rewrite E. cbn [rbind rmapM compute].
  destruct (get_exists S 1) as (q & G). { rewrite L. assert (length s <> 0) by (destruct s; [contradiction|discriminate]). lia. }
  assert (Rq : reproduces q). { apply nth_get in G. destruct G as [_ G]. rewrite Forall_forall in R. exact (R q (nth_error_In _ _ G)). }
  destruct Rq as (r & l & Er & _). rewrite (A2_make S 1 1 q q r r So G G Er Er). cbn [rmap rbind entries map rmapM].
  assert (Z : (2 * 2 * vdot (raise_r r) r)%fld = (0%fld : tower K (4 * length s))).
  { apply four_zero. generalize r. generalize (tower K (4 * length s)). clear. intros L r. apply self_dot. }
  rewrite Z. unfold as_poly. rewrite number_zero. reflexivity.
Qed.
End Exists.
