(* Proofs about Polar.v. *)
From Coq Require Import List ZArith Bool Lia Ring Field.
From Verif Require Import Base Fld Particle ParticleSpec ParticleThm Index IndexThm Phase PhaseSpec PhaseThm ComputeThm ComputeThm2 Polar PolarSpec.
Import ListNotations.

Section Polar.
Context {K : Fld}.
Open Scope fld_scope.
Add Field Kpol1 : (fth K).
Implicit Types p q : particle K.
Ltac mext := apply m2_ext; unfold_vec; cbn [m00 m01 m10 m11 e0 e1].

Lemma spin_up p r l : has_spinors p r l -> r_u p = Some (raise_r r) /\ l_u p = Some (raise_r l).
Proof. intros (R & L & C). rewrite (cons_r p C), (cons_l p C), R, L. auto. Qed.

Lemma s2_nz (s2 : K) : fsqrt 2 = Some s2 -> s2 <> 0.
Proof. intros H ->. apply fsqrt_ok in H. apply (two_nz (K := K)). rewrite <- H. ring. Qed.
Lemma s2_sq (s2 : K) : fsqrt 2 = Some s2 -> s2 * s2 = 2.
Proof. intros H. apply fsqrt_ok in H. exact H. Qed.

Lemma div_s2 (n s2 d : K) : s2 <> 0 -> divE n (s2 * d) = if feqb d 0 then Err ZeroDivisionError else Ok (n / (s2 * d)).
Proof.
  intros N. unfold divE. destruct (feqb d 0) eqn:D.
  - apply feqb_ok in D. subst d. replace (s2 * 0) with (0 : K) by ring. rewrite feqb_refl. reflexivity.
  - apply feqb_neq in D. rewrite (proj2 (feqb_neq (s2 * d) 0)); [reflexivity|]. intros Z. apply D.
    replace d with (s2 * d / s2) by (field; exact N). rewrite Z. field. exact N.
Qed.
Lemma accepted_cases h : accepted h -> (plus_like h = true /\ (Z.eqb h 43 || Z.eqb h 112)%bool = true) \/
  (plus_like h = false /\ minus_like h = true /\ (Z.eqb h 43 || Z.eqb h 112)%bool = false).
Proof. intros [[->| ->]|[->| ->]]; cbn; auto. Qed.

Theorem ep_value helconf q (s : ps K) i j h (s2 : K) pi pj rq lq ri li :
  py_get helconf (i - 1) = Ok h -> accepted h -> fsqrt 2 = Some s2 -> has_spinors q rq lq ->
  getitem s i = Ok pi -> has_spinors pi ri li -> getitem s j = Ok pj -> consistent pj ->
  ep helconf q s i j = if feqb (ep_den rq lq h ri li) 0 then Err ZeroDivisionError
                       else Ok (Some (contract (polarisation s2 rq lq h ri li) (r2 pj))).
Proof.
  intros Eh A E2 Q Ei Pi Ej Cj. pose proof (spin_up q rq lq Q) as [Qr Ql]. pose proof (spin_up pi ri li Pi) as [Pr Pl].
  destruct Q as (Q1 & Q2 & _). destruct Pi as (P1 & P2 & _). pose proof (s2_nz s2 E2) as N2. pose proof (s2_sq s2 E2) as SQ.
  unfold ep. rewrite Eh. cbn [rbind]. unfold ep_den, polarisation.
  destruct (accepted_cases h A) as [(-> & ->)|(-> & -> & ->)]; rewrite ?Qr, ?Ql, ?Ei, ?Ej; cbn [the rbind]; rewrite ?Pr, ?Pl, ?P1, ?P2, ?E2; cbn [the rbind]; rewrite ?Ei, ?Ej; cbn [the rbind];
    rewrite ?Pr, ?Pl, ?P1, ?P2, ?E2; cbn [the rbind];
    rewrite div_s2 by exact N2; (match goal with |- context [if feqb ?d 0 then _ else _] => destruct (feqb d 0) eqn:D end; [reflexivity|]); apply feqb_neq in D;
    cbn [rmap]; do 2 f_equal; unfold contract, eps_plus, eps_minus, sandwich; rewrite (cons_r2b pj Cj).
  - match goal with |- ?n / (_ * ?d) = _ => transitivity ((s2 * s2) * n / (2 * (s2 * d))); [rewrite SQ; field; repeat split; try assumption; try apply two_nz|] end.
    unfold_vec; cbn [e0 e1] in *; unfold adj, raise_r in *; cbn [e0 e1 m00 m01 m10 m11] in *; field; repeat split; try assumption; try apply two_nz.
  - match goal with |- ?n / (_ * ?d) = _ => transitivity ((s2 * s2) * n / (2 * (s2 * d))); [rewrite SQ; field; repeat split; try assumption; try apply two_nz|] end.
    unfold_vec; cbn [e0 e1] in *; unfold adj, raise_r in *; cbn [e0 e1 m00 m01 m10 m11] in *; field; repeat split; try assumption; try apply two_nz.
Qed.

Theorem ee_value fuel helconf q (s : ps K) i j hi hj (s2 : K) pi pj rq lq ri li rj lj :
  (2 <= fuel)%nat -> py_get helconf (i - 1) = Ok hi -> py_get helconf (j - 1) = Ok hj -> ((plain hi /\ plain hj) \/ (letters hi /\ letters hj)) ->
  fsqrt 2 = Some s2 -> has_spinors q rq lq -> r2b q = outer rq lq ->
  getitem s i = Ok pi -> has_spinors pi ri li -> getitem s j = Ok pj -> has_spinors pj rj lj ->
  vdot (raise_r rq) ri <> 0 -> vdot (raise_r rq) rj <> 0 -> vdot li (raise_r lq) <> 0 -> vdot lj (raise_r lq) <> 0 ->
  ee fuel helconf q s i j = Ok (contract (polarisation s2 rq lq hi ri li) (polarisation s2 rq lq hj rj lj)).
Proof.
  intros FU Ehi Ehj ST E2 Q RQ Ei Pi Ej Pj N1 N2 N3 N4. pose proof (spin_up pi ri li Pi) as [Pr Pl]. pose proof (spin_up pj rj lj Pj) as [Pr' Pl'].
  pose proof (s2_nz s2 E2) as NZ. pose proof (s2_sq s2 E2) as SQ.
  destruct fuel as [|[|f]]; [lia|lia|]. cbn [ee]. rewrite Ehi, Ehj. cbn [rbind].
  assert (PP : 0 = contract (eps_plus s2 rq ri li) (eps_plus s2 rq rj lj)).
  { unfold contract, eps_plus. unfold_vec. unfold adj, raise_r in *. cbn [e0 e1 m00 m01 m10 m11] in *. field. repeat split; try assumption; try apply two_nz. }
  assert (MM : 0 = contract (eps_minus s2 lq ri li) (eps_minus s2 lq rj lj)).
  { unfold contract, eps_minus. unfold_vec. unfold adj, raise_r in *. cbn [e0 e1 m00 m01 m10 m11] in *. field. repeat split; try assumption; try apply two_nz. }
  assert (DIV : forall ra la rb lb : v2 K, vdot (raise_r rq) rb <> 0 -> vdot la (raise_r lq) <> 0 ->
    rmap (fun x => - x) (divE (sandwich (raise_r ra) (r2b q) (raise_r lb)) (sandwich (raise_r rb) (r2b q) (raise_r la))) = Ok (contract (eps_minus s2 lq ra la) (eps_plus s2 rq rb lb))).
  { intros ra la rb lb A B. rewrite RQ. unfold divE.
    assert (D : sandwich (raise_r rb) (outer rq lq) (raise_r la) = vdot (raise_r rq) rb * vdot la (raise_r lq)).
    { unfold sandwich. unfold_vec. unfold raise_r. cbn. ring. }
    assert (ND : vdot (raise_r rq) rb * vdot la (raise_r lq) <> 0).
    { intros Z. apply A. replace (vdot (raise_r rq) rb) with (vdot (raise_r rq) rb * vdot la (raise_r lq) / vdot la (raise_r lq)) by (field; exact B). rewrite Z. field. exact B. }
    rewrite D, (proj2 (feqb_neq _ _) ND). cbn [rmap]. f_equal.
    unfold contract, eps_minus, eps_plus.
    transitivity ((s2 * s2) * - sandwich (raise_r ra) (outer rq lq) (raise_r lb) / (2 * (vdot (raise_r rq) rb * vdot la (raise_r lq)))).
    { rewrite SQ. field. repeat split; try assumption; try apply two_nz. }
    unfold sandwich. unfold_vec. unfold adj, raise_r in *. cbn [e0 e1 m00 m01 m10 m11] in *. field. repeat split; try assumption; try apply two_nz. }
  assert (SYM : forall a b : m2 K, contract a b = contract b a).
  { intros a b. unfold contract, adj. unfold_vec. field. apply two_nz. }
  unfold polarisation.
  destruct ST as [[[->| ->] [->| ->]]|[[->| ->] [->| ->]]]; cbn [Z.eqb Pos.eqb orb plus_like minus_like]; rewrite <- ?PP, <- ?MM; try reflexivity;
    rewrite ?Ehi, ?Ehj, ?Ei, ?Ej; cbn [the rbind]; rewrite ?Pr, ?Pl, ?Pr', ?Pl'; cbn [the rbind]; rewrite ?Ei, ?Ej; cbn [the rbind]; rewrite ?Pr, ?Pl, ?Pr', ?Pl'; cbn [the rbind].
  all: try (rewrite (DIV ri li rj lj) by assumption; reflexivity).
  all: rewrite (DIV rj lj ri li) by assumption; rewrite SYM; reflexivity.
Qed.

Theorem ee_endless fuel helconf q (s : ps K) i j hi hj :
  py_get helconf (i - 1) = Ok hi -> py_get helconf (j - 1) = Ok hj -> hi <> hj -> minus_like hi = false -> minus_like hj = false ->
  ee fuel helconf q s i j = Err RecursionError.
Proof.
  revert i j hi hj. induction fuel as [|f IH]; intros i j hi hj Ei Ej N Mi Mj; [reflexivity|]. cbn [ee]. rewrite Ei, Ej. cbn [rbind].
  rewrite (proj2 (Z.eqb_neq hi hj) N), Mi. apply (IH j i hj hi); auto.
Qed.

(* consequences for the contractions themselves *)
Lemma pol_transverse s2 rq lq h (r l : v2 K) : accepted h -> ep_den rq lq h r l <> 0 ->
  contract (polarisation s2 rq lq h r l) (outer (raise_r l) (raise_r r)) = 0.
Proof.
  intros A D. unfold polarisation, ep_den in *. destruct (_ || _)%bool; unfold contract, eps_plus, eps_minus; unfold_vec; unfold adj, raise_r in *; cbn [e0 e1 m00 m01 m10 m11] in *;
    field; repeat split; try assumption; try apply two_nz.
Qed.
Lemma pol_ref s2 rq lq h (r l : v2 K) : accepted h -> ep_den rq lq h r l <> 0 ->
  contract (polarisation s2 rq lq h r l) (outer (raise_r lq) (raise_r rq)) = 0.
Proof.
  intros A D. unfold polarisation, ep_den in *. destruct (_ || _)%bool; unfold contract, eps_plus, eps_minus; unfold_vec; unfold adj, raise_r in *; cbn [e0 e1 m00 m01 m10 m11] in *;
    field; repeat split; try assumption; try apply two_nz.
Qed.
Lemma pol_gauge s2 rq lq rq' lq' h (r l : v2 K) : accepted h -> ep_den rq lq h r l <> 0 -> ep_den rq' lq' h r l <> 0 ->
  exists c, polarisation s2 rq' lq' h r l = madd (polarisation s2 rq lq h r l) (mscale c (outer (raise_r l) (raise_r r))).
Proof.
  intros A D D'. unfold polarisation, ep_den in *. destruct (_ || _)%bool.
  - exists (s2 * vdot (raise_r rq) rq' / (vdot (raise_r rq) r * vdot (raise_r rq') r)). unfold eps_plus. mext; unfold raise_r in *; cbn [e0 e1] in *; field; auto.
  - exists (- s2 * vdot lq (raise_r lq') / (vdot l (raise_r lq) * vdot l (raise_r lq'))). unfold eps_minus. mext; unfold raise_r in *; cbn [e0 e1] in *; field; auto.
Qed.
Lemma contract_add (a b c : m2 K) : contract a (madd b c) = contract a b + contract a c.
Proof. unfold contract, adj. unfold_vec. field. apply two_nz. Qed.
Lemma contract_scale (a b : m2 K) x : contract a (mscale x b) = x * contract a b.
Proof. unfold contract, adj. unfold_vec. field. apply two_nz. Qed.
Lemma contract_sym (a b : m2 K) : contract a b = contract b a.
Proof. unfold contract, adj. unfold_vec. field. apply two_nz. Qed.

Theorem ep_transverse helconf q (s : ps K) i h (s2 : K) pi rq lq ri li :
  py_get helconf (i - 1) = Ok h -> accepted h -> fsqrt 2 = Some s2 -> has_spinors q rq lq ->
  getitem s i = Ok pi -> has_spinors pi ri li -> r2b pi = outer ri li -> ep_den rq lq h ri li <> 0 ->
  ep helconf q s i i = Ok (Some 0).
Proof.
  intros Eh A E2 Q Ei Pi R D. pose proof Pi as (_ & _ & C).
  rewrite (ep_value helconf q s i i h s2 pi pi rq lq ri li Eh A E2 Q Ei Pi Ei C), (proj2 (feqb_neq _ _) D).
  replace (r2 pi) with (outer (raise_r li) (raise_r ri)); [rewrite pol_transverse by assumption; reflexivity|].
  rewrite <- outer_adj', <- R, (cons_r2b pi C). apply adj_adj.
Qed.
Lemma contract_sum (a : m2 K) ms : contract a (msum ms) = fold_right fadd 0 (map (contract a) ms).
Proof.
  induction ms as [|m ms IH]; cbn [map fold_right msum].
  - unfold contract, adj. unfold_vec. field. apply two_nz.
  - change (fold_right madd mzero ms) with (msum ms). rewrite contract_add, IH. reflexivity.
Qed.
Lemma contract_zero (a : m2 K) : contract a mzero = 0.
Proof. unfold contract, adj. unfold_vec. field. apply two_nz. Qed.
Theorem ep_conservation helconf q (s : ps K) i h (s2 : K) pi rq lq ri li :
  py_get helconf (i - 1) = Ok h -> accepted h -> fsqrt 2 = Some s2 -> has_spinors q rq lq ->
  getitem s i = Ok pi -> has_spinors pi ri li -> ep_den rq lq h ri li <> 0 ->
  Forall (fun p => consistent p) s -> total_mom s = mzero ->
  exists es, rmapM (fun j => ep helconf q s i j) (upto (length s)) = Ok (map Some es) /\ fold_right fadd 0 es = 0.
Proof.
  intros Eh A E2 Q Ei Pi D C T. exists (map (fun p => contract (polarisation s2 rq lq h ri li) (r2 p)) s). split.
  - assert (G : forall s0 pre, s = pre ++ s0 -> rmapM (fun j => ep helconf q s i j) (map Z.of_nat (seq (Datatypes.S (length pre)) (length s0))) =
        Ok (map Some (map (fun p => contract (polarisation s2 rq lq h ri li) (r2 p)) s0))).
    { induction s0 as [|p s0 IH]; intros pre E; [reflexivity|]. cbn [length seq map rmapM].
      assert (Gp : getitem s (Z.of_nat (Datatypes.S (length pre))) = Ok p).
      { rewrite E. apply (proj1 (index_in pre p s0 (Z.of_nat (Datatypes.S (length pre))) p ltac:(unfold zlen; lia))). }
      assert (Cp : consistent p) by (rewrite Forall_forall in C; apply C; rewrite E; apply in_elt).
      rewrite (ep_value helconf q s i _ h s2 pi p rq lq ri li Eh A E2 Q Ei Pi Gp Cp), (proj2 (feqb_neq _ _) D).
      specialize (IH (pre ++ [p])). rewrite app_length in IH. cbn [length] in IH. replace (length pre + 1)%nat with (Datatypes.S (length pre)) in IH by lia.
      rewrite IH by (rewrite E, <- app_assoc; reflexivity). reflexivity. }
    exact (G s [] eq_refl).
  - rewrite <- (map_map (fun p => r2 p) (contract _)), <- contract_sum. change (msum (map (fun p => r2 p) s)) with (total_mom s). rewrite T. apply contract_zero.
Qed.
Theorem ee_symmetric fuel helconf q (s : ps K) i j hi hj :
  (2 <= fuel)%nat -> py_get helconf (i - 1) = Ok hi -> py_get helconf (j - 1) = Ok hj -> ((plain hi /\ plain hj) \/ (letters hi /\ letters hj)) ->
  ee fuel helconf q s i j = ee fuel helconf q s j i.
Proof.
  intros FU Ei Ej ST. destruct fuel as [|[|f]]; [lia|lia|]. cbn [ee]. rewrite Ei, Ej. cbn [rbind].
  destruct ST as [[[->| ->] [->| ->]]|[[->| ->] [->| ->]]]; cbn [Z.eqb Pos.eqb orb minus_like]; reflexivity.
Qed.
Theorem ee_equal fuel helconf q (s : ps K) i j h : (1 <= fuel)%nat -> py_get helconf (i - 1) = Ok h -> py_get helconf (j - 1) = Ok h -> ee fuel helconf q s i j = Ok 0.
Proof. intros FU Ei Ej. destruct fuel as [|f]; [lia|]. cbn [ee]. rewrite Ei, Ej. cbn [rbind]. rewrite Z.eqb_refl. reflexivity. Qed.
Theorem ep_reference helconf q q' (s : ps K) i h (s2 : K) pi rq lq rq' lq' ri li :
  py_get helconf (i - 1) = Ok h -> accepted h -> fsqrt 2 = Some s2 -> has_spinors q rq lq -> has_spinors q' rq' lq' ->
  getitem s i = Ok pi -> has_spinors pi ri li -> r2b pi = outer ri li -> ep_den rq lq h ri li <> 0 -> ep_den rq' lq' h ri li <> 0 ->
  exists c, forall j pj, getitem s j = Ok pj -> consistent pj ->
    exists x, ep helconf q s i j = Ok (Some x) /\ ep helconf q' s i j = Ok (Some (x + c * ldot pi pj)).
Proof.
  intros Eh A E2 Q Q' Ei Pi R D D'. pose proof Pi as (_ & _ & C). destruct (pol_gauge s2 rq lq rq' lq' h ri li A D D') as [c P]. exists c. intros j pj Ej Cj.
  exists (contract (polarisation s2 rq lq h ri li) (r2 pj)).
  rewrite (ep_value helconf q s i j h s2 pi pj rq lq ri li Eh A E2 Q Ei Pi Ej Cj), (proj2 (feqb_neq _ _) D). split; [reflexivity|].
  rewrite (ep_value helconf q' s i j h s2 pi pj rq' lq' ri li Eh A E2 Q' Ei Pi Ej Cj), (proj2 (feqb_neq _ _) D'). do 2 f_equal.
  rewrite P, (contract_sym (madd _ _)), contract_add, contract_scale, !(contract_sym (r2 pj)). f_equal. f_equal.
  unfold ldot, contract. rewrite (cons_r2b pj Cj). replace (r2 pi) with (outer (raise_r li) (raise_r ri)); [reflexivity|].
  rewrite <- outer_adj', <- R, (cons_r2b pi C). apply adj_adj.
Qed.
Theorem ep_linear helconf q (s sa sb : ps K) i j h (s2 a b : K) pi pj pa pb rq lq ri li :
  py_get helconf (i - 1) = Ok h -> accepted h -> fsqrt 2 = Some s2 -> has_spinors q rq lq ->
  getitem s i = Ok pi -> getitem sa i = Ok pi -> getitem sb i = Ok pi -> has_spinors pi ri li -> ep_den rq lq h ri li <> 0 ->
  getitem s j = Ok pj -> getitem sa j = Ok pa -> getitem sb j = Ok pb -> consistent pj -> consistent pa -> consistent pb ->
  r2 pj = madd (mscale a (r2 pa)) (mscale b (r2 pb)) ->
  exists x y, ep helconf q sa i j = Ok (Some x) /\ ep helconf q sb i j = Ok (Some y) /\ ep helconf q s i j = Ok (Some (a * x + b * y)).
Proof.
  intros Eh A E2 Q E1 Ea Eb Pi D Gj Ga Gb Cj Ca Cb R. exists (contract (polarisation s2 rq lq h ri li) (r2 pa)), (contract (polarisation s2 rq lq h ri li) (r2 pb)).
  rewrite (ep_value helconf q s i j h s2 pi pj rq lq ri li), (ep_value helconf q sa i j h s2 pi pa rq lq ri li), (ep_value helconf q sb i j h s2 pi pb rq lq ri li) by assumption.
  rewrite (proj2 (feqb_neq _ _) D). split; [reflexivity|]. split; [reflexivity|]. rewrite R, contract_add, !contract_scale. reflexivity.
Qed.
End Polar.

Lemma py_get_labels {A} (l : list A) (k : Z) :
  (forall h n, k = Z.of_nat (S n) -> nth_error l n = Some h -> py_get l (k - 1) = Ok h /\ py_get l (k - zlen l - 1) = Ok h) /\
  ((k > zlen l \/ k < 1 - zlen l)%Z -> py_get l (k - 1) = Err IndexError).
Proof.
  unfold py_get, zlen. split.
  - intros h n -> E. assert (L : (n < length l)%nat) by (apply nth_error_Some; congruence).
    destruct (Z.ltb_spec (Z.of_nat (S n) - 1) 0); [lia|]. destruct (Z.ltb_spec (Z.of_nat (S n) - Z.of_nat (length l) - 1) 0); [|lia].
    destruct (Z.ltb_spec (Z.of_nat (S n) - 1) 0); [lia|]. destruct (Z.ltb_spec (Z.of_nat (S n) - Z.of_nat (length l) - 1 + Z.of_nat (length l)) 0); [lia|].
    replace (Z.to_nat (Z.of_nat (S n) - 1)) with n by lia. replace (Z.to_nat (Z.of_nat (S n) - Z.of_nat (length l) - 1 + Z.of_nat (length l))) with n by lia. rewrite E. auto.
  - intros H. destruct (Z.ltb_spec (k - 1) 0) as [N|N].
    + destruct (Z.ltb_spec (k - 1 + Z.of_nat (length l)) 0); [reflexivity|lia].
    + destruct (Z.ltb_spec (k - 1) 0); [lia|]. rewrite (proj2 (nth_error_None l _)) by lia. reflexivity.
Qed.
