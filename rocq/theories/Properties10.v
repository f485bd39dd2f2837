(* C50 and C55: contractions of polarisation vectors, and slices. *)
From Coq Require Import List ZArith Bool Lia.
From Verif Require Import Base Fld Particle ParticleSpec Index Phase PhaseSpec PhaseThm Compute ComputeSpec FldInst SymmThm Polar PolarSpec PolarThm Slice SliceThm Properties03 Properties04 Properties07.
Import ListNotations.
Open Scope fld_scope.

(* ---- C50 ---- *)
(* ep(i, j) is the contraction of one vector for leg i with the momentum of leg j *)
Theorem C50_ep :
  forall (K : Fld) (helconf : list Z) (q : particle K) (s : ps K) (i j h : Z) (s2 : K) (pi pj : particle K) (rq lq ri li : v2 K),
  py_get helconf (i - 1) = Ok h -> accepted h -> fsqrt 2 = Some s2 -> has_spinors q rq lq ->
  getitem s i = Ok pi -> has_spinors pi ri li -> getitem s j = Ok pj -> consistent pj ->
  ep helconf q s i j = (if feqb (ep_den rq lq h ri li) 0 then Err ZeroDivisionError
                        else Ok (Some (contract (polarisation s2 rq lq h ri li) (r2 pj)))) /\
  pe helconf q s j i = ep helconf q s i j.
Proof.
  intros K helconf q s i j h s2 pi pj rq lq ri li Eh A E2 Q Ei Pi Ej Cj. split; [|reflexivity].
  exact (ep_value helconf q s i j h s2 pi pj rq lq ri li Eh A E2 Q Ei Pi Ej Cj).
Qed.
Print Assumptions C50_ep.
(* a point with a square root of two: three legs over seven elements *)
Definition ex7 : ps GF7 := from_spinors [(V2 (g7 1) (g7 2), V2 (g7 3) (g7 1)); (V2 (g7 2) (g7 5), V2 (g7 1) (g7 1)); (V2 (g7 1) (g7 0), V2 (g7 2) (g7 6))].
Definition q7 : particle GF7 := new_spinors (V2 (g7 1) (g7 3)) (V2 (g7 4) (g7 1)).
Lemma ok_some (r : result (option GF7)) (y : GF7) : match r with Ok (Some x) => feqb x y | _ => false end = true -> r = Ok (Some y).
Proof. destruct r as [[x|]|]; try discriminate. intros H. apply (feqb_ok GF7) in H. congruence. Qed.
Ltac oks := apply ok_some; vm_compute; reflexivity.
Lemma q7_spinors : has_spinors q7 (V2 (g7 1) (g7 3)) (V2 (g7 4) (g7 1)).
Proof. destruct (new_spinors_good (K := GF7) (V2 (g7 1) (g7 3)) (V2 (g7 4) (g7 1))) as (C & _). split; [reflexivity|]. split; [reflexivity|exact C]. Qed.
Lemma sqrt7 : exists s2 : GF7, fsqrt 2 = Some s2. Proof. fsome. Qed.
Example C50_ep_ex : has_spinors q7 (V2 (g7 1) (g7 3)) (V2 (g7 4) (g7 1)) /\ (exists s2 : GF7, fsqrt 2 = Some s2) /\ accepted 43 /\ accepted 109 /\
  ep [43; 109; 45]%Z q7 ex7 1 2 = Ok (Some (g7 4)) /\ ep [43; 109; 45]%Z q7 ex7 2 3 = Ok (Some (g7 6)).
Proof.
  split; [exact q7_spinors|]. split; [exact sqrt7|]. split; [left; left; reflexivity|]. split; [right; right; reflexivity|]. split; oks.
Qed.
(* that vector is orthogonal to the momentum of its leg *)
Theorem C50_transverse :
  forall (K : Fld) (helconf : list Z) (q : particle K) (s : ps K) (i h : Z) (s2 : K) (pi : particle K) (rq lq ri li : v2 K),
  py_get helconf (i - 1) = Ok h -> accepted h -> fsqrt 2 = Some s2 -> has_spinors q rq lq ->
  getitem s i = Ok pi -> has_spinors pi ri li -> r2b pi = outer ri li -> ep_den rq lq h ri li <> 0 ->
  ep helconf q s i i = Ok (Some 0).
Proof. intros K helconf q s i h s2 pi rq lq ri li Eh A E2 Q Ei Pi R D. exact (ep_transverse helconf q s i h s2 pi rq lq ri li Eh A E2 Q Ei Pi R D). Qed.
Print Assumptions C50_transverse.
Example C50_transverse_ex : ep [43; 109; 45]%Z q7 ex7 1 1 = Ok (Some 0) /\ ep [43; 109; 45]%Z q7 ex7 2 2 = Ok (Some 0).
Proof. split; oks. Qed.
(* the sum over all legs vanishes when momentum is conserved *)
Theorem C50_conservation :
  forall (K : Fld) (helconf : list Z) (q : particle K) (s : ps K) (i h : Z) (s2 : K) (pi : particle K) (rq lq ri li : v2 K),
  py_get helconf (i - 1) = Ok h -> accepted h -> fsqrt 2 = Some s2 -> has_spinors q rq lq ->
  getitem s i = Ok pi -> has_spinors pi ri li -> ep_den rq lq h ri li <> 0 ->
  Forall (fun p => consistent p) s -> total_mom s = mzero ->
  exists es, rmapM (fun j => ep helconf q s i j) (upto (length s)) = Ok (map Some es) /\ fold_right fadd 0 es = 0.
Proof. intros K helconf q s i h s2 pi rq lq ri li Eh A E2 Q Ei Pi D C T. exact (ep_conservation helconf q s i h s2 pi rq lq ri li Eh A E2 Q Ei Pi D C T). Qed.
Print Assumptions C50_conservation.
(* a conserving point of four legs over seven elements *)
Definition ex7c : ps GF7 := from_spinors [(V2 (g7 1) (g7 2), V2 (g7 3) (g7 1)); (V2 (g7 2) (g7 5), V2 (g7 1) (g7 1)); (V2 (g7 1) (g7 0), V2 (g7 2) (g7 4)); (V2 (g7 0) (g7 1), V2 (g7 3) (g7 0))].
Example C50_conservation_ex : total_mom ex7c = mzero /\ py_get [43; 109; 45; 112]%Z (2 - 1) = Ok 109%Z /\
  ep [43; 109; 45; 112]%Z q7 ex7c 2 1 = Ok (Some (g7 4)) /\ ep [43; 109; 45; 112]%Z q7 ex7c 2 3 = Ok (Some (g7 0)) /\ ep [43; 109; 45; 112]%Z q7 ex7c 2 4 = Ok (Some (g7 3)).
Proof. split; [apply meqb_ok; vm_compute; reflexivity|]. split; [reflexivity|]. split; [oks|]. split; oks. Qed.
(* linear in the second momentum *)
Theorem C50_linear :
  forall (K : Fld) (helconf : list Z) (q : particle K) (s sa sb : ps K) (i j h : Z) (s2 a b : K) (pi pj pa pb : particle K) (rq lq ri li : v2 K),
  py_get helconf (i - 1) = Ok h -> accepted h -> fsqrt 2 = Some s2 -> has_spinors q rq lq ->
  getitem s i = Ok pi -> getitem sa i = Ok pi -> getitem sb i = Ok pi -> has_spinors pi ri li -> ep_den rq lq h ri li <> 0 ->
  getitem s j = Ok pj -> getitem sa j = Ok pa -> getitem sb j = Ok pb -> consistent pj -> consistent pa -> consistent pb ->
  r2 pj = madd (mscale a (r2 pa)) (mscale b (r2 pb)) ->
  exists x y, ep helconf q sa i j = Ok (Some x) /\ ep helconf q sb i j = Ok (Some y) /\ ep helconf q s i j = Ok (Some (a * x + b * y)).
Proof.
  intros K helconf q s sa sb i j h s2 a b pi pj pa pb rq lq ri li Eh A E2 Q E1 Ea Eb Pi D Gj Ga Gb Cj Ca Cb R.
  exact (ep_linear helconf q s sa sb i j h s2 a b pi pj pa pb rq lq ri li Eh A E2 Q E1 Ea Eb Pi D Gj Ga Gb Cj Ca Cb R).
Qed.
Print Assumptions C50_linear.
(* another reference vector: the same multiple of p_i.p_j for every j *)
Theorem C50_reference :
  forall (K : Fld) (helconf : list Z) (q q' : particle K) (s : ps K) (i h : Z) (s2 : K) (pi : particle K) (rq lq rq' lq' ri li : v2 K),
  py_get helconf (i - 1) = Ok h -> accepted h -> fsqrt 2 = Some s2 -> has_spinors q rq lq -> has_spinors q' rq' lq' ->
  getitem s i = Ok pi -> has_spinors pi ri li -> r2b pi = outer ri li -> ep_den rq lq h ri li <> 0 -> ep_den rq' lq' h ri li <> 0 ->
  exists c, forall (j : Z) (pj : particle K), getitem s j = Ok pj -> consistent pj ->
    exists x, ep helconf q s i j = Ok (Some x) /\ ep helconf q' s i j = Ok (Some (x + c * ldot pi pj)).
Proof.
  intros K helconf q q' s i h s2 pi rq lq rq' lq' ri li Eh A E2 Q Q' Ei Pi R D D'.
  exact (ep_reference helconf q q' s i h s2 pi rq lq rq' lq' ri li Eh A E2 Q Q' Ei Pi R D D').
Qed.
Print Assumptions C50_reference.
Example C50_reference_ex : exists q' : particle GF7, (exists r l, has_spinors q' r l) /\ ep [43; 109; 45]%Z q' ex7 1 2 = Ok (Some (g7 6)) /\ ep [43; 109; 45]%Z q7 ex7 1 2 = Ok (Some (g7 4)).
Proof.
  exists (new_spinors (V2 (g7 2) (g7 1)) (V2 (g7 1) (g7 5))). split; [|split; oks].
  exists (V2 (g7 2) (g7 1)), (V2 (g7 1) (g7 5)). destruct (new_spinors_good (K := GF7) (V2 (g7 2) (g7 1)) (V2 (g7 1) (g7 5))) as (C & _). split; [reflexivity|]. split; [reflexivity|exact C].
Qed.
(* ee(i, j) is the contraction of the same two vectors, when both symbols are of one style;
   partial: the property has every mixture of the accepted symbols, which is refuted below *)
Theorem C50_ee_partial :
  forall (K : Fld) (fuel : nat) (helconf : list Z) (q : particle K) (s : ps K) (i j hi hj : Z) (s2 : K) (pi pj : particle K) (rq lq ri li rj lj : v2 K),
  (2 <= fuel)%nat -> py_get helconf (i - 1) = Ok hi -> py_get helconf (j - 1) = Ok hj -> ((plain hi /\ plain hj) \/ (letters hi /\ letters hj)) ->
  fsqrt 2 = Some s2 -> has_spinors q rq lq -> r2b q = outer rq lq ->
  getitem s i = Ok pi -> has_spinors pi ri li -> getitem s j = Ok pj -> has_spinors pj rj lj ->
  vdot (raise_r rq) ri <> 0 -> vdot (raise_r rq) rj <> 0 -> vdot li (raise_r lq) <> 0 -> vdot lj (raise_r lq) <> 0 ->
  ee fuel helconf q s i j = Ok (contract (polarisation s2 rq lq hi ri li) (polarisation s2 rq lq hj rj lj)).
Proof.
  intros K fuel helconf q s i j hi hj s2 pi pj rq lq ri li rj lj FU Ehi Ehj ST E2 Q RQ Ei Pi Ej Pj N1 N2 N3 N4.
  exact (ee_value fuel helconf q s i j hi hj s2 pi pj rq lq ri li rj lj FU Ehi Ehj ST E2 Q RQ Ei Pi Ej Pj N1 N2 N3 N4).
Qed.
Print Assumptions C50_ee_partial.
Example C50_ee_ex : ee 2 [43; 45; 45]%Z q7 ex7 1 2 = Ok (g7 2) /\ ee 2 [43; 45; 45]%Z q7 ex7 2 1 = Ok (g7 2) /\ ee 2 [43; 45; 45]%Z q7 ex7 3 2 = Ok 0.
Proof. split; [fokeq|]. split; fokeq. Qed.
Theorem C50_ee_symmetric_partial :
  forall (K : Fld) (fuel : nat) (helconf : list Z) (q : particle K) (s : ps K) (i j hi hj : Z),
  (2 <= fuel)%nat -> py_get helconf (i - 1) = Ok hi -> py_get helconf (j - 1) = Ok hj -> ((plain hi /\ plain hj) \/ (letters hi /\ letters hj)) ->
  ee fuel helconf q s i j = ee fuel helconf q s j i.
Proof. intros K fuel helconf q s i j hi hj FU Ei Ej ST. exact (ee_symmetric fuel helconf q s i j hi hj FU Ei Ej ST). Qed.
Print Assumptions C50_ee_symmetric_partial.
Theorem C50_ee_equal :
  forall (K : Fld) (fuel : nat) (helconf : list Z) (q : particle K) (s : ps K) (i j h : Z), (1 <= fuel)%nat -> py_get helconf (i - 1) = Ok h -> py_get helconf (j - 1) = Ok h ->
  ee fuel helconf q s i j = Ok 0.
Proof. intros K fuel helconf q s i j h FU Ei Ej. exact (ee_equal fuel helconf q s i j h FU Ei Ej). Qed.
Print Assumptions C50_ee_equal.
(* mixtures of the accepted symbols: two symbols for minus give neither zero nor a symmetric value *)
Theorem C50_ee_minus_refuted :
  exists (helconf : list Z) (q : particle GF7) (s : ps GF7) (x y : GF7), Forall accepted helconf /\
    py_get helconf (2 - 1) = Ok 109%Z /\ py_get helconf (3 - 1) = Ok 45%Z /\
    ee 2 helconf q s 2 3 = Ok x /\ ee 2 helconf q s 3 2 = Ok y /\ x <> 0 /\ x <> y.
Proof.
  exists [43; 109; 45]%Z, q7, ex7, (g7 3), (g7 5). split; [repeat apply Forall_cons; try apply Forall_nil; unfold accepted, plain, letters; auto|].
  split; [reflexivity|]. split; [reflexivity|]. split; [fokeq|]. split; [fokeq|]. split; fneq.
Qed.
Print Assumptions C50_ee_minus_refuted.
(* and two symbols for plus never return *)
Theorem C50_ee_plus_endless :
  forall (K : Fld) (fuel : nat) (helconf : list Z) (q : particle K) (s : ps K) (i j : Z),
  py_get helconf (i - 1) = Ok 43%Z -> py_get helconf (j - 1) = Ok 112%Z -> ee fuel helconf q s i j = Err RecursionError /\ ee fuel helconf q s j i = Err RecursionError.
Proof.
  intros K fuel helconf q s i j Ei Ej. split; [apply (ee_endless fuel helconf q s i j 43 112)|apply (ee_endless fuel helconf q s j i 112 43)]; auto; discriminate.
Qed.
Print Assumptions C50_ee_plus_endless.
Example C50_ee_plus_endless_ex : py_get [43; 112]%Z (1 - 1) = Ok 43%Z /\ py_get [43; 112]%Z (2 - 1) = Ok 112%Z /\ Forall accepted [43; 112]%Z.
Proof. split; [reflexivity|]. split; [reflexivity|]. repeat apply Forall_cons; try apply Forall_nil; unfold accepted, plain, letters; auto. Qed.

(* ---- C55 ---- *)
(* a solution of the equations: for every t the point is made of massless legs with total
   momentum zero, and every constraint vanishes *)
Theorem C55_slice :
  forall (K : Fld) (s : ps K) (xs ys : list K) (er el : v2 K) (constraints : list cexpr) (eqs : list K),
  Forall (fun p => fresh p) s -> length xs = length s -> length ys = length s ->
  equations s xs ys er el constraints = Ok eqs -> Forall (fun c => c = 0) eqs ->
  forall t : K, exists st, slice_at t s xs ys er el = Ok st /\ length st = length s /\ Forall (fun p => fresh p) st /\ total_mom st = mzero /\
    Forall (fun e => ceval (fun c => c) fadd fmul (c_A2 st) (c_S2 st) e = Ok 0) constraints.
Proof. intros K s xs ys er el constraints eqs F L1 L2 E Z t. exact (slice_thm s xs ys er el constraints eqs F L1 L2 E Z t). Qed.
Print Assumptions C55_slice.
Definition xs55 : list GF13 := map g13 [6; 4; 8; 10; 1; 4]%Z.
Definition ys55 : list GF13 := map g13 [9; 9; 9; 10; 3; 2]%Z.
Definition slice55 (t : Z) : result (ps GF13) := slice_at (g13 t) ex6 xs55 ys55 (V2 (g13 1) (g13 3)) (V2 (g13 2) (g13 5)).
(* <5|3> = 10 is the constraint; <1|2> moves with t *)
Example C55_slice_ex : exists eqs, equations ex6 xs55 ys55 (V2 (g13 1) (g13 3)) (V2 (g13 2) (g13 5)) [CAdd (CAng2 5 3) (CNum (g13 3))] = Ok eqs /\
  Forall (fun c => c = 0) eqs /\ length eqs = 15%nat /\ Forall (fun x => x <> 0) (xs55 ++ ys55) /\
  rbind (slice55 0) (fun s => c_A2 s 1 2) = Ok (g13 10) /\ rbind (slice55 1) (fun s => c_A2 s 1 2) = Ok (g13 6) /\ rbind (slice55 2) (fun s => c_A2 s 1 2) = Ok (g13 2).
Proof.
  exists (get_ok [] (equations ex6 xs55 ys55 (V2 (g13 1) (g13 3)) (V2 (g13 2) (g13 5)) [CAdd (CAng2 5 3) (CNum (g13 3))])). split; [fok|]. split.
  { apply Forall_forall. intros c Hc. apply (feqb_ok GF13). revert c Hc. apply forallb_forall. vm_compute. reflexivity. }
  split; [vm_compute; reflexivity|]. split.
  { apply Forall_forall. intros c Hc. apply (feqb_neq (K := GF13)), Bool.negb_true_iff. revert c Hc.
    apply (proj1 (forallb_forall (fun c => negb (feqb c 0)) (xs55 ++ ys55))). vm_compute. reflexivity. }
  split; [fokeq|]. split; fokeq.
Qed.
(* the brackets are affine in t, whether or not the equations hold *)
Theorem C55_affine :
  forall (K : Fld) (s : ps K) (xs ys : list K) (er el : v2 K), Forall (fun p => fresh p) s -> length xs = length s -> length ys = length s ->
  forall a b : Z, (1 <= a <= zlen s)%Z -> (1 <= b <= zlen s)%Z ->
  exists u v u' v' : K, forall (t : K) (st : ps K), slice_at t s xs ys er el = Ok st -> c_A2 st a b = Ok (u + t * v) /\ c_S2 st a b = Ok (u' + t * v').
Proof. intros K s xs ys er el F L1 L2 a b Ha Hb. exact (slice_affine s xs ys er el F L1 L2 a b Ha Hb). Qed.
Print Assumptions C55_affine.
(* two variables *)
Theorem C55_bivariate :
  forall (K : Fld) (s : ps K) (us : list unknowns) (er1 el1 er2 el2 : v2 K) (eqs : list K), Forall (fun p => fresh p) s -> length us = length s ->
  equations2 s us er1 el1 er2 el2 = Ok eqs -> Forall (fun c => c = 0) eqs ->
  forall t1 t2 : K, exists st, slice_at2 t1 t2 s us er1 el1 er2 el2 = Ok st /\ length st = length s /\ Forall (fun p => fresh p) st /\ total_mom st = mzero.
Proof. intros K s us er1 el1 er2 el2 eqs F L E Z t1 t2. exact (slice2_thm s us er1 el1 er2 el2 eqs F L E Z t1 t2). Qed.
Print Assumptions C55_bivariate.
Definition us55 : list (@unknowns GF13) :=
  map (fun u => let '((a, b), c) := u in U (g13 a) (g13 b) (g13 c) (g13 0))
      [((1, 9), 7); ((7, 2), 7); ((10, 8), 5); ((12, 4), 10); ((5, 5), 6); ((9, 5), 12)]%Z.
Definition slice55b (t1 t2 : Z) : result (ps GF13) :=
  slice_at2 (g13 t1) (g13 t2) ex6 us55 (V2 (g13 2) (g13 9)) (V2 (g13 12) (g13 12)) (V2 (g13 1) (g13 4)) (V2 (g13 1) (g13 7)).
Example C55_bivariate_ex : exists eqs, equations2 ex6 us55 (V2 (g13 2) (g13 9)) (V2 (g13 12) (g13 12)) (V2 (g13 1) (g13 4)) (V2 (g13 1) (g13 7)) = Ok eqs /\
  Forall (fun c => c = 0) eqs /\
  rbind (slice55b 0 0) (fun s => c_A2 s 1 2) = Ok (g13 10) /\ (exists st, slice55b 3 4 = Ok st /\ total_mom st = mzero /\ c_A2 st 1 2 <> c_A2 ex6 1 2).
Proof.
  exists (get_ok [] (equations2 ex6 us55 (V2 (g13 2) (g13 9)) (V2 (g13 12) (g13 12)) (V2 (g13 1) (g13 4)) (V2 (g13 1) (g13 7)))). split; [fok|]. split.
  { apply Forall_forall. intros c Hc. apply (feqb_ok GF13). revert c Hc. apply forallb_forall. vm_compute. reflexivity. }
  split; [fokeq|]. exists (get_ok [] (slice55b 3 4)). split; [fok|]. split; [fcomp|].
  apply (bool_neq (fun r => match r with Ok x => feqb (x : GF13) (g13 10) | _ => true end)). vm_compute. reflexivity.
Qed.
(* the fourth family of unknowns, ys2, occurs in no equation and does not change the point:
   xs2 is used for both kinds of spinors *)
Theorem C55_unused :
  forall (K : Fld) (t1 t2 : K) (s : ps K) (us : list unknowns) (ys : list K) (er1 el1 er2 el2 : v2 K), length ys = length us ->
  let us' := map (fun uy => U (ux1 (fst uy)) (uy1 (fst uy)) (ux2 (fst uy)) (snd uy)) (combine us ys) in
  equations2 s us' er1 el1 er2 el2 = equations2 s us er1 el1 er2 el2 /\ slice_at2 t1 t2 s us' er1 el1 er2 el2 = slice_at2 t1 t2 s us er1 el1 er2 el2.
Proof. intros K t1 t2 s us ys er1 el1 er2 el2 L. exact (slice2_no_y2 t1 t2 s us ys er1 el1 er2 el2 L). Qed.
Print Assumptions C55_unused.
