(* C08-C12, C31: phase space points as lists, momentum conservation. *)
From Coq Require Import List ZArith Bool Lia Permutation Sorted.
From Verif Require Import Base Fld Particle ParticleSpec ParticleThm Index IndexThm Phase PhaseSpec PhaseThm FldInst.
Import ListNotations.
Open Scope fld_scope.

(* C08: one access at a time *)
Theorem C08_base_one_index :
  forall (A : Type) (l : list A) (i : Z) (v : A),
  ((1 <= i <= Z.of_nat (length l))%Z ->
     exists l1 x l2, l = l1 ++ x :: l2 /\ Z.of_nat (length l1) = (i - 1)%Z /\
       getitem l i = Ok x /\ setitem l i v = Ok (l1 ++ v :: l2) /\
       delitem l i = Ok (l1 ++ l2) /\ insert l i v = Ok (l1 ++ v :: x :: l2)) /\
  (~ (1 <= i <= Z.of_nat (length l))%Z ->
     getitem l i = Err IndexError /\ setitem l i v = Err IndexError /\
     delitem l i = Err IndexError /\ insert l i v = Err IndexError).
Proof. exact (fun A l i v => base_one l i v). Qed.
Print Assumptions C08_base_one_index.

(* C08: any history of mutations acts as the same history on an ordinary list;
   a step either succeeds or raises IndexError and changes nothing. *)
Theorem C08_base_one_history :
  forall (A : Type) (ops : list (lop A)) (l : list A),
  fold_left (fun s o => fst (lstep s o)) ops l = fold_left spec_step ops l /\
  (forall o, snd (lstep l o) = Ok tt \/ (snd (lstep l o) = Err IndexError /\ fst (lstep l o) = l)).
Proof. exact (fun A ops l => conj (history_spec ops l) (fun o => proj2 (lstep_spec l o))). Qed.
Print Assumptions C08_base_one_history.
Example C08_ex : fold_left (fun s o => fst (lstep s o)) [LSet 2 20; LIns 1 5; LDel 4; LIns 9 7]%Z [1;2;3;4]%Z = [5;1;20;4]%Z
  /\ getitem [1;2;3]%Z 0 = Err IndexError /\ getitem [1;2;3]%Z (-1) = Err IndexError.
Proof. repeat split. Qed.

(* finding: a two-digit label given as a string reads the particle of its first digit *)
Theorem C08_two_digit_string_refuted :
  exists (l : list nat), getitem l 12 = Ok 12%nat /\ getitem_digits l [Some 1; Some 2]%Z = Ok 1%nat.
Proof. exists (seq 1 12). split; reflexivity. Qed.
Print Assumptions C08_two_digit_string_refuted.

(* C09: equality *)
Theorem C09_equality_partial :
  forall (K : Fld) (s s' : ps K), length s = length s' ->
  (exists b, seq_eq p_eqb s s' = Ok b) /\
  (seq_eq p_eqb s s' = Ok true <-> Forall2 (fun p q => r2 p = r2 q) s s') /\
  seq_eq p_eqb s s = Ok true /\
  seq_eq p_eqb s s' = seq_eq p_eqb s' s.
Proof. exact (fun K s s' => ps_eq_spec s s'). Qed.
Print Assumptions C09_equality_partial.
Definition ex_a : particle GF13 := new_spinors (V2 (g13 2) (g13 3)) (V2 (g13 5) (g13 7)).
Definition ex_b : particle GF13 := new_spinors (V2 (g13 1) (g13 4)) (V2 (g13 2) (g13 9)).
Definition ex_c : particle GF13 := new_spinors (V2 (g13 6) (g13 1)) (V2 (g13 1) (g13 8)).
Definition ex_d : particle GF13 := new_spinors (V2 (g13 3) (g13 10)) (V2 (g13 11) (g13 5)).
Example C09_ex : length [ex_a; ex_b] = length [ex_a; ex_a] /\ seq_eq p_eqb [ex_a; ex_b] [ex_a; ex_a] = Ok false.
Proof. split; [reflexivity|vm_compute; reflexivity]. Qed.

(* finding: points of different multiplicity compare equal one way and raise the other *)
Theorem C09_equality_refuted :
  exists s s' : ps GF13, length s <> length s' /\
    seq_eq p_eqb s s' = Ok true /\ seq_eq p_eqb s' s = Err IndexError.
Proof. exists [ex_a], [ex_a; ex_b]. split; [discriminate|]. split; vm_compute; reflexivity. Qed.
Print Assumptions C09_equality_refuted.
(* exactly when: prefix gives True, longer left operand raises *)
Theorem C09_equality_exact :
  forall (K : Fld) (s s' : ps K),
  (seq_eq p_eqb s s' = Ok true <->
     exists s1 s2, s' = s1 ++ s2 /\ Forall2 (fun p q => p_eqb p q = true) s s1) /\
  (seq_eq p_eqb s s' = Err IndexError <->
     exists s1 s2, s2 <> [] /\ s = s1 ++ s2 /\ Forall2 (fun p q => p_eqb p q = true) s1 s').
Proof. exact (fun K s s' => seq_eq_cases p_eqb s s'). Qed.
Print Assumptions C09_equality_exact.

(* C10: complex momentum conservation.  pA, pB: the particles before the call,
   pivot: [A|B] for axis 1, <A|B> otherwise *)
Theorem C10_fix_mom_cons :
  forall (K : Fld) (cv : convention) (sample : option (Z * Z)) (s : ps K) (A B axis : Z) (pA pB : particle K) (d : K),
  A <> B -> getitem s A = Ok pA -> getitem s B = Ok pB -> reachable pA -> reachable pB ->
  r_d pA <> None -> l_d pA <> None -> r_d pB <> None -> l_d pB <> None -> pivot axis pA pB = Some d ->
  let x := fix_mom_cons cv sample A B false axis s in
  (d = 0 -> x = (s, Err ZeroDivisionError)) /\
  (d <> 0 -> exists s' pA' pB', x = (s', Ok tt) /\ total_mom s' = mzero /\ untouched s s' A B /\
    getitem s' A = Ok pA' /\ getitem s' B = Ok pB' /\
    massless_ok pA' /\ massless_ok pB' /\ lsq pA' = 0 /\ lsq pB' = 0 /\
    spin pA' = spin pA /\ spin pB' = spin pB /\
    (if Z.eqb axis 1 then l_d pA' = l_d pA /\ l_d pB' = l_d pB /\ l_u pA' = l_u pA /\ l_u pB' = l_u pB
     else r_d pA' = r_d pA /\ r_d pB' = r_d pB /\ r_u pA' = r_u pA /\ r_u pB' = r_u pB)).
Proof. exact (fun K cv sample s A B axis pA pB d => fix_complex_spec cv sample s A B axis pA pB d). Qed.
Print Assumptions C10_fix_mom_cons.
Example C10_ex :
  let s := [ex_a; ex_b; ex_c; ex_d] in
  getitem s 1 = Ok ex_a /\ getitem s 3 = Ok ex_c /\ reachable ex_a /\ reachable ex_c /\
  (exists d, pivot 1 ex_a ex_c = Some d /\ d <> 0) /\ (exists d, pivot 2 ex_a ex_c = Some d /\ d <> 0) /\
  pivot 1 ex_a ex_a = Some (0 : GF13).
Proof.
  split; [reflexivity|]. split; [reflexivity|]. split; [apply reach_con, con_sp|]. split; [apply reach_con, con_sp|].
  split; [exists (g13 7); split; [fsomeq|fneq]|]. split; [exists (g13 3); split; [fsomeq|fneq]|fsomeq].
Qed.
(* the degenerate call with A = B raises too *)
Theorem C10_same_leg :
  forall (K : Fld) (s : ps K) (A axis : Z) (pA : particle K),
  getitem s A = Ok pA -> reachable pA -> r_d pA <> None -> l_d pA <> None ->
  fix_mom_cons_complex A A axis s = (s, Err ZeroDivisionError).
Proof. exact (fun K s A axis pA G R => fix_complex_same s A axis pA G (reachable_consistent pA R)). Qed.
Print Assumptions C10_same_leg.
(* finding: exactly one zero label: nothing happens, no error *)
Theorem C10_one_zero_label_silent_refuted :
  exists s : ps GF13, total_mom s <> mzero /\
    fix_mom_cons Symmetric None 0 2 false 1 s = (s, Ok tt).
Proof. exists [ex_a; ex_b; ex_b]. split; [|reflexivity].
  intros H. apply (f_equal (fun m : m2 GF13 => gval 13 (m00 m))) in H. vm_compute in H. discriminate. Qed.
Print Assumptions C10_one_zero_label_silent_refuted.

(* C11: real momenta.  vs: the momenta of the other legs *)
Theorem C11_fix_mom_cons_real :
  forall (K : Fld) (cv : convention) (s : ps K) (A B axis : Z) (pA pB : particle K) (i : K) (vs : list (v4 K)),
  fimag = Some i -> A <> B -> getitem s A = Ok pA -> getitem s B = Ok pB ->
  Forall (fun p => consistent p) s -> (3 <= length s)%nat -> (axis = 1 \/ axis = 2 \/ axis = 3)%Z ->
  (exists os, others s A B = Ok os /\ rmapM (fun p => need_r (fm p)) os = Ok vs) ->
  forall Kv Kax, Kv = v4sum vs -> v4get Kv axis = Some Kax ->
  (c0 Kv = Kax -> fix_mom_cons_real cv A B axis s = (s, Err ZeroDivisionError)) /\
  (c0 Kv <> Kax ->
   exists s' res, fix_mom_cons_real cv A B axis s = (s', res) /\ (cv = Symmetric -> res = Ok tt) /\
   (res = Ok tt -> exists pA' pB' vA vB,
    total_mom s' = mzero /\ untouched s s' A B /\ getitem s' A = Ok pA' /\ getitem s' B = Ok pB' /\
    consistent pA' /\ consistent pB' /\ lsq pA' = 0 /\ lsq pB' = 0 /\
    fm pA' = Some vA /\ fm pB' = Some vB /\
    (forall R, subfield R -> Forall (v4_in R) vs -> v4_in R vA /\ v4_in R vB))).
Proof. exact (fun K cv s A B axis pA pB i vs => fix_real_ok cv s A B axis pA pB i vs). Qed.
Print Assumptions C11_fix_mom_cons_real.
Definition ex_r1 : particle GQ := new_spinors (V2 (gq 1 0) (gq 2 1)) (V2 (gq 1 0) (gq 2 (-1))).
Definition ex_r2 : particle GQ := new_spinors (V2 (gq 2 0) (gq 0 1)) (V2 (gq 2 0) (gq 0 (-1))).
Definition ex_r3 : particle GQ := new_spinors (V2 (gq 1 0) (gq 1 1)) (V2 (gq 1 0) (gq 1 (-1))).
Example C11_ex :
  let s := [ex_r1; ex_r2; ex_r3; ex_r1] in
  @fimag GQ = Some (gq 0 1) /\ getitem s 2%Z = Ok ex_r2 /\ getitem s 4%Z = Ok ex_r1 /\
  Forall (fun p => consistent p) s /\
  exists vs, (exists os, others s 2%Z 4%Z = Ok os /\ rmapM (fun p => need_r (fm p)) os = Ok vs) /\
    c0 (v4sum vs) <> c1 (v4sum vs) /\ c0 (v4sum vs) <> c2 (v4sum vs).
Proof.
  cbn zeta. split; [reflexivity|]. split; [reflexivity|]. split; [reflexivity|].
  split; [repeat (apply Forall_cons; [apply constructed_consistent, con_sp|]); apply Forall_nil|].
  exists (get_ok [] (rmapM (fun p => need_r (fm p)) [ex_r1; ex_r3])). split.
  - exists [ex_r1; ex_r3]. split; [reflexivity|]. fok.
  - split; fneq.
Qed.

(* C12: fresh points *)
Theorem C12_new_point :
  forall (K : Fld) (draws : list (v2 K * v2 K)) (sample : option (Z * Z)) (fixmc : bool),
  sample_ok (length draws) sample ->
  let x := new_particles draws sample fixmc in
  (snd x = Ok tt -> length (fst x) = length draws /\ Forall fresh (fst x) /\ (fixmc = true -> total_mom (fst x) = mzero)) /\
  (snd x = Ok tt \/ snd x = Err ZeroDivisionError \/ ((length draws < 2)%nat /\ snd x = Err ValueError)).
Proof. exact (fun K draws sample fixmc => new_particles_ok draws sample fixmc). Qed.
Print Assumptions C12_new_point.
Theorem C12_randomise_all :
  forall (K : Fld) (cv : convention) (draws : list (v2 K * v2 K)) (sample : option (Z * Z)) (s : ps K),
  length draws = length s -> Forall (fun p => reachable p) s -> sample_ok (length s) sample ->
  let x := randomise_all cv draws sample s in
  snd x = Ok tt -> length (fst x) = length s /\ physical (fst x).
Proof.
  exact (fun K cv draws sample s L F => randomise_all_ok cv draws sample s L
    (Forall_impl _ (fun p => reachable_consistent p) F)).
Qed.
Print Assumptions C12_randomise_all.
Definition ex_draws : list (v2 GF13 * v2 GF13) :=
  [(V2 (g13 2) (g13 3), V2 (g13 5) (g13 7)); (V2 (g13 1) (g13 4), V2 (g13 2) (g13 9)); (V2 (g13 6) (g13 1), V2 (g13 1) (g13 8))].
Example C12_ex : sample_ok (length ex_draws) (Some (3, 1)%Z) /\
  snd (new_particles ex_draws (Some (3, 1)%Z) true) = Ok tt /\
  snd (randomise_all Symmetric ex_draws (Some (3, 1)%Z) [ex_a; ex_b; ex_c]) = Ok tt.
Proof. cbn. repeat split; try lia; vm_compute; reflexivity. Qed.

(* C31: complement.  set_order: the iteration order of python's set *)
Theorem C31_complementary :
  forall (so : list Z -> list Z) (n : nat) (l : list Z), set_like so ->
  (l = [] -> complementary so n l = Err IndexError) /\
  (l <> [] -> exists c, complementary so n l = Ok c /\ StronglySorted Z.lt c /\
     (forall x, In x c <-> ((1 <= x <= Z.of_nat n)%Z /\ ~ In x l)) /\
     (StronglySorted Z.lt l -> (forall x, In x l -> (1 <= x <= Z.of_nat n)%Z) -> c <> [] -> complementary so n c = Ok l)).
Proof. exact (fun so n l => complementary_all so n l). Qed.
Print Assumptions C31_complementary.
(* momentum of l plus momentum of the complement is the total momentum *)
Theorem C31_momentum :
  forall (K : Fld) (so : list Z -> list Z) (s : ps K) (l c : list Z) (pl pc : list (particle K)),
  set_like so -> NoDup l -> complementary so (length s) l = Ok c ->
  rmapM (getitem s) l = Ok pl -> rmapM (getitem s) c = Ok pc ->
  madd (msum (map (fun p => r2 p) pl)) (msum (map (fun p => r2 p) pc)) = total_mom s.
Proof. exact (fun K so s l c pl pc => complementary_momentum so s l c pl pc). Qed.
Print Assumptions C31_momentum.
Example C31_ex : set_like (nodup Z.eq_dec) /\ complementary (nodup Z.eq_dec) 6 [5;2;2;9]%Z = Ok [1;3;4;6]%Z /\
  complementary (nodup Z.eq_dec) 6 [2;5]%Z = Ok [1;3;4;6]%Z.
Proof. split; [intros l; split; [apply NoDup_nodup|intros x; apply nodup_In]|split; vm_compute; reflexivity]. Qed.
