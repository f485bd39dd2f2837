(* C01-C06: one particle. *)
From Coq Require Import List ZArith Bool.
From Verif Require Import Base Fld Particle ParticleSpec ParticleThm FldInst.
Import ListNotations.
Open Scope fld_scope.

(* C01: after any history of assignments that raise nothing, every representation
   of the momentum is the same momentum and raised/lowered spinors match. *)
Theorem C01_representations_agree :
  forall (K : Fld) (p0 q : particle K) (ops : list op),
    constructed p0 -> run ops p0 = (q, Ok tt) -> consistent q.
Proof. exact (fun K p0 q ops C => run_consistent ops p0 q (constructed_consistent p0 C)). Qed.
Print Assumptions C01_representations_agree.

(* ... and if the field has an imaginary unit this holds at every point of every
   history, also after exceptions that the caller caught. *)
Theorem C01_representations_agree_despite_exceptions :
  forall (K : Fld) (p0 : particle K) (ops : list op),
    @fimag K <> None -> constructed p0 -> consistent (run_all ops p0).
Proof. exact (fun K p0 ops H C => run_all_consistent ops p0 (constructed_consistent p0 C) H). Qed.
Print Assumptions C01_representations_agree_despite_exceptions.

Definition ex_p : particle GF13 := new_spinors (V2 (g13 2) (g13 3)) (V2 (g13 5) (g13 7)).
Definition ex_ops : list (@op GF13) :=
  [ORu (V2 (g13 4) (g13 1)); OFm Symmetric (V4 (g13 7) (g13 4) (g13 8) (g13 3));
   OFlip; OR2b Asymmetric (M2 (g13 1) (g13 2) (g13 3) (g13 4)); OLd (V2 (g13 1) (g13 1))].
Example C01_ex : constructed ex_p /\ snd (run ex_ops ex_p) = Ok tt /\ @fimag GF13 <> None.
Proof.
  split; [apply con_sp|]. split; [vm_compute; reflexivity|].
  rewrite gf13_imag. discriminate.
Qed.

(* Without an imaginary unit the caught exception leaves a stale four momentum. *)
Theorem C01_stale_after_exception_refuted :
  exists (p0 : particle GF7) (ops : list op), constructed p0 /\ ~ consistent (run_all ops p0).
Proof.
  exists (new_spinors (V2 (g7 1) (g7 2)) (V2 (g7 1) (g7 3))), [OFm Symmetric (V4 (g7 1) (g7 0) (g7 0) (g7 0))].
  split; [apply con_sp|]. intros C. pose proof (cons_fm _ C) as H.
  destruct (fm _) as [v|] eqn:E in H.
  - destruct H as [_ (i & Hi & _)]. rewrite gf7_no_imag in Hi. discriminate.
  - apply (f_equal is_some) in E. vm_compute in E. discriminate.
Qed.
Print Assumptions C01_stale_after_exception_refuted.

(* C02: massless momenta and their spinors, for the four momentum setters. *)
Theorem C02_massless_spinors :
  forall (K : Fld) (cv : convention) (p : particle K),
  (forall m, mdet m = 0 -> massless_outcome cv m (assign_r2_sp cv m p)) /\
  (forall m, mdet m = 0 -> massless_outcome cv (adj m) (assign_r2_sp_b cv m p)) /\
  (forall i v, fimag = Some i -> mink v v = 0 ->
     massless_outcome cv (slash_up i v) (assign_four_mom cv v p)) /\
  (forall i v, fimag = Some i -> mink v v = 0 ->
     massless_outcome cv (slash_up i (metric v)) (assign_four_mom_d cv v p)).
Proof. exact (fun K cv p => massless_outcomes cv p). Qed.
Print Assumptions C02_massless_spinors.

(* (5,3,0,4): p0+p3 = 9 has a square root; (4,0,0,-4): p0+p3 = 0 *)
Example C02_ex :
  mink (V4 (gq 5 0) (gq 3 0) (gq 0 0) (gq 4 0)) (V4 (gq 5 0) (gq 3 0) (gq 0 0) (gq 4 0)) = 0 /\
  fsqrt (m11 (slash_up (gq 0 1) (V4 (gq 5 0) (gq 3 0) (gq 0 0) (gq 4 0)))) = Some (gq 3 0) /\
  mink (V4 (gq 4 0) (gq 0 0) (gq 0 0) (gq (-4) 0)) (V4 (gq 4 0) (gq 0 0) (gq 0 0) (gq (-4) 0)) = 0 /\
  m11 (slash_up (gq 0 1) (V4 (gq 4 0) (gq 0 0) (gq 0 0) (gq (-4) 0))) = 0.
Proof. repeat split; fcomp. Qed.

(* C03: assigning one spinor. *)
Theorem C03_spinor_assignment :
  forall (K : Fld) (p : particle K) (r l v : v2 K),
  reachable p -> r_d p = Some r -> l_d p = Some l ->
  let good q := consistent q /\ lsq q = 0 /\ reproduces q /\ spin q = spin p in
  (exists q, assign_r_sp_d v p = (q, Ok tt) /\ r_d q = Some v /\ l_d q = l_d p /\ l_u q = l_u p /\ good q) /\
  (exists q, assign_r_sp_u v p = (q, Ok tt) /\ r_u q = Some v /\ l_d q = l_d p /\ l_u q = l_u p /\ good q) /\
  (exists q, assign_l_sp_d v p = (q, Ok tt) /\ l_d q = Some v /\ r_d q = r_d p /\ r_u q = r_u p /\ good q) /\
  (exists q, assign_l_sp_u v p = (q, Ok tt) /\ l_u q = Some v /\ r_d q = r_d p /\ r_u q = r_u p /\ good q).
Proof. exact (fun K p r l v H => assign_spinor_spec p r l v (reachable_consistent p H)). Qed.
Print Assumptions C03_spinor_assignment.

(* a particle whose spinors came from a massive momentum still meets the hypotheses *)
Definition ex_m : particle GF13 := fst (run [OR2 Asymmetric (M2 (g13 1) (g13 2) (g13 3) (g13 4))] ex_p).
Example C03_ex : reachable ex_m /\ (exists r, r_d ex_m = Some r) /\ (exists l, l_d ex_m = Some l) /\ lsq ex_m <> 0.
Proof.
  split; [apply reach_run; [apply con_sp|vm_compute; reflexivity]|].
  split; [fsome|]. split; [fsome|].
  fneq.
Qed.

(* C04: mass and Lorentz product. *)
Theorem C04_mass :
  forall (K : Fld) (p : particle K), reachable p ->
  lsq p = mdet (r2 p) /\ lsq p = mdet (r2b p) /\ (forall v, fm p = Some v -> lsq p = mink v v).
Proof. exact (fun K p H => mass_spec p (reachable_consistent p H)). Qed.
Print Assumptions C04_mass.

Theorem C04_ldot :
  forall (K : Fld) (p q : particle K), reachable p -> reachable q ->
  ldot p q = ldot q p /\ ldot p p = lsq p /\
  (forall v w, fm p = Some v -> fm q = Some w -> ldot p q = mink v w).
Proof. exact (fun K p q H H' => ldot_spec p q (reachable_consistent p H) (reachable_consistent q H')). Qed.
Print Assumptions C04_ldot.

Theorem C04_ldot_bilinear :
  forall (K : Fld) (p1 p2 q p : particle K) (a b : K),
  reachable p -> reachable p1 -> reachable p2 -> reachable q ->
  r2 p = madd (mscale a (r2 p1)) (mscale b (r2 p2)) ->
  ldot p q = a * ldot p1 q + b * ldot p2 q /\ ldot q p = a * ldot q p1 + b * ldot q p2.
Proof.
  exact (fun K p1 p2 q p a b H H1 H2 Hq => ldot_linear p1 p2 q a b p
    (reachable_consistent p H) (reachable_consistent p1 H1) (reachable_consistent p2 H2) (reachable_consistent q Hq)).
Qed.
Print Assumptions C04_ldot_bilinear.

Definition ex_c : particle GF13 :=
  fst (run [OR2 Asymmetric (madd (mscale (g13 2) (r2 ex_p)) (mscale (g13 3) (r2 ex_m)))] ex_p).
Example C04_ex : reachable ex_p /\ (exists v, fm ex_m = Some v) /\ reachable ex_m /\ lsq ex_m <> 0 /\
  reachable ex_c /\ r2 ex_c = madd (mscale (g13 2) (r2 ex_p)) (mscale (g13 3) (r2 ex_m)).
Proof.
  split; [apply reach_con, con_sp|].
  split; [fsome|].
  split; [apply reach_run; [apply con_sp|vm_compute; reflexivity]|].
  split; [fneq|].
  split; [apply reach_run; [apply con_sp|vm_compute; reflexivity]|].
  fcomp.
Qed.

(* C05: arithmetic on particles. *)
Theorem C05_arithmetic :
  forall (K : Fld) (p q p0 : particle K) (c : K),
  (exists s, p_add Symmetric p (OPart q) = Ok s /\ r2 s = madd (r2 p) (r2 q) /\ constructed s) /\
  (exists s, p_sub Symmetric p (OPart q) = Ok s /\ r2 s = msub (r2 p) (r2 q) /\ constructed s) /\
  (exists s, p_mul Symmetric p c = Ok s /\ r2 s = mscale c (r2 p) /\ constructed s) /\
  (c <> 0 -> exists s, p_div Symmetric p c = Ok s /\ mscale c (r2 s) = r2 p /\ constructed s) /\
  (c = 0 -> p_div Symmetric p c = Err ZeroDivisionError) /\
  (exists s, p_neg Symmetric p0 p = Ok s /\ r2 s = mopp (r2 p)) /\
  (p_add Symmetric p (ONum 0) = Ok p /\ p_radd Symmetric p (ONum 0) = Ok p /\ p_sub Symmetric p (ONum 0) = Ok p) /\
  (c <> 0 -> p_add Symmetric p (ONum c) = Err AssertionError) /\
  (p_eqb p q = true <-> r2 p = r2 q).
Proof. exact (fun K p q p0 c => arithmetic_spec p q p0 c). Qed.
Print Assumptions C05_arithmetic.

Theorem C05_sum :
  forall (K : Fld) (p : particle K) (l : list (particle K)),
  exists s, p_sum Symmetric (p :: l) = Ok (OPart s) /\
            r2 s = fold_right madd mzero (map (fun x => r2 x) (p :: l)) /\ (l = [] -> s = p).
Proof. exact (fun K p l => p_sum_spec p l). Qed.
Print Assumptions C05_sum.

(* == compares whole momenta: all other representations then agree too *)
Theorem C05_eq_all_representations :
  forall (K : Fld) (p q : particle K), reachable p -> reachable q ->
  p_eqb p q = true -> r2b p = r2b q /\ fm p = fm q /\ fmd p = fmd q.
Proof. exact (fun K p q H H' => p_eqb_all_reps p q (reachable_consistent p H) (reachable_consistent q H')). Qed.
Print Assumptions C05_eq_all_representations.

(* in the asymmetric convention a sum with p0+p3 = 0 raises *)
Theorem C05_asymmetric_sum_refuted :
  exists p q : particle GF13, constructed p /\ constructed q /\
    p_add Asymmetric p (OPart q) = Err ZeroDivisionError.
Proof.
  exists (new_spinors (V2 (g13 1) (g13 2)) (V2 (g13 1) (g13 3))), (new_spinors (V2 (g13 1) (g13 5)) (V2 (g13 (-1)) (g13 3))).
  split; [apply con_sp|]. split; [apply con_sp|]. ferr.
Qed.
Print Assumptions C05_asymmetric_sum_refuted.

(* C06: equal particles need not have equal hashes: (|1>,|1]) and (t|1>,|1]/t). *)
Theorem C06_equal_hash_refuted :
  exists p q : particle GF13, constructed p /\ constructed q /\ p_eqb p q = true /\ p_hash p <> p_hash q.
Proof.
  exists (new_spinors (V2 (g13 1) (g13 2)) (V2 (g13 1) (g13 3))), (new_spinors (V2 (g13 2) (g13 4)) (V2 (g13 7) (g13 8))).
  split; [apply con_sp|]. split; [apply con_sp|]. split; [vm_compute; reflexivity|].
  intros H. apply (f_equal (fun h : @hash_input GF13 => match h with HSpinors r _ => Some (gval 13 (e0 r)) | _ => None end)) in H.
  vm_compute in H. discriminate.
Qed.
Print Assumptions C06_equal_hash_refuted.

(* hash() of a massless particle without spinors (p0+p3 = 0) raises *)
Theorem C06_hash_raises_refuted :
  exists p : particle GF13, constructed p /\ p_hash p = HNone.
Proof.
  exists (get_ok ex_p (new_r2 Symmetric (M2 (g13 1) (g13 0) (g13 0) (g13 0)))).
  split; [eapply (con_r2 Symmetric); fok|].
  match goal with |- p_hash ?p = _ =>
    assert (E : match p_hash p with HNone => true | _ => false end = true) by (vm_compute; reflexivity);
    destruct (p_hash p); [discriminate|discriminate|reflexivity] end.
Qed.
Print Assumptions C06_hash_raises_refuted.

(* what does hold: equal massive particles, and equal particles in the same little-group frame *)
Theorem C06_equal_hash_partial :
  forall (K : Fld) (p q : particle K), reachable p -> reachable q -> p_eqb p q = true ->
  lsq p <> 0 \/ (r_d p = r_d q /\ l_d p = l_d q) -> p_hash p = p_hash q.
Proof. exact (fun K p q H H' => hash_spec p q (reachable_consistent p H) (reachable_consistent q H')). Qed.
Print Assumptions C06_equal_hash_partial.
Example C06_ex : p_eqb ex_m ex_m = true /\ lsq ex_m <> 0 /\ p_eqb ex_p ex_p = true /\ lsq ex_p = 0.
Proof. split; [vm_compute; reflexivity|]. split; [fneq|]. split; [vm_compute; reflexivity|fcomp]. Qed.
