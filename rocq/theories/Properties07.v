(* C34-C39 and the part of C40 about _set: setting one invariant. *)
From Coq Require Import List ZArith Bool Lia Permutation.
From Verif Require Import Base Fld Particle ParticleSpec ParticleThm Index IndexThm Phase PhaseSpec PhaseThm Arcs ArcsSpec ArcsThm Compute ComputeSpec ComputeThm ComputeThm2 ComputeThm4 Cluster ClusterThm FldInst SymmThm
  Tr5 SetOne SetSpec SetThm SetThm2 SetThm3 SetThm4 SetThm5 SetThm6 SetThm7 SetThm8 SetThm9 Properties03 Properties04.
Import ListNotations.
Open Scope fld_scope.

Definition ns : list Z -> list Z := nodup Z.eq_dec.
Lemma ns_set : set_like ns.
Proof. intros l. split; [apply NoDup_nodup|intros x; apply nodup_In]. Qed.
Lemma from_spinors_fresh {K : Fld} (l : list (v2 K * v2 K)) : Forall (fun p => fresh p) (from_spinors l).
Proof.
  apply Forall_forall. intros p Hp. apply in_map_iff in Hp as (x & <- & _). pose proof (new_spinors_good (fst x) (snd x)) as H. cbn in H.
  split; [|split]; tauto.
Qed.
Lemma ex6_fresh : Forall (fun p => fresh p) ex6. Proof. apply from_spinors_fresh. Qed.
(* one call of _set at ex6 *)
Definition go6 (t : target) (X m : Z) : result unit := snd (set_ Symmetric ns t (g13 X) true m ex6).
Ltac nzt := match goal with |- nz ?r => exists (get_ok (0 : GF13) r) end; split; [fok|fneq].
Lemma inr6 (k : Z) : (1 <= k <= 6)%Z -> inr ex6 k. Proof. exact (fun H => H). Qed.
Ltac legs6 := intros k Hk; cbn [In] in Hk; match goal with |- (_ <= _ <= Z.of_nat ?n)%Z => let m := eval vm_compute in (Z.of_nat n) in change (1 <= k <= m)%Z end; lia.

(* ---- C40 for _set: whatever the solver does ---- *)
Theorem C40_set_returns :
  forall (K : Fld) (inner : QM (K := K) unit) (value : ps K -> result K) (X : K) (fix_mom : bool) (s s' : ps K),
  set_checked inner value X fix_mom s = (s', Ok tt) ->
  inner s = (s', Ok tt) /\ value s' = Ok X /\ (fix_mom = true -> total_mom s' = mzero /\ Forall (fun p => lsq p = 0) s').
Proof. intros K inner value X fx s s' H. exact (set_checked_inv inner value X fx s s' H). Qed.
Print Assumptions C40_set_returns.
Theorem C40_set :
  forall (K : Fld) (cv : convention) (so : list Z -> list Z) (t : target) (X : K) (mode : Z) (s s' : ps K),
  set_ cv so t X true mode s = (s', Ok tt) -> c_target s' t = Ok X /\ total_mom s' = mzero /\ Forall (fun p => lsq p = 0) s'.
Proof. intros K cv so t X mode s s' H. apply set_checked_inv in H as (_ & V & F). split; [exact V|]. apply F. reflexivity. Qed.
Print Assumptions C40_set.
Example C40_set_ex : go6 (TInv (IS [1; 2; 3]%Z)) 5 1 = Ok tt /\ go6 (TInv (IS [1; 2]%Z)) 5 1 = Err MyException.
Proof. split; vm_compute; reflexivity. Qed.

(* ---- C34 ---- *)

Theorem C34_angle :
  forall (K : Fld) (cv : convention) (so : list Z -> list Z) (s : ps K) (A B : Z) (X : K) (mode p q : Z) (rest : list Z), set_like so -> Forall (fun p => fresh p) s ->
  inr s A -> inr s B -> A <> B -> free_legs (length s) [A; B] = p :: q :: rest ->
  (first_r s A <> Some 0 -> nz (c_A2 s p q) ->
     exists s', set_ cv so (TInv (IA2 A B)) X true mode s = (s', Ok tt) /\
       made s s' (TInv (IA2 A B)) X [B; p; q] /\ keeps_l s s' B /\ keeps_r s s' p /\ keeps_r s s' q) /\
  ((first_r s A = Some 0 \/ c_A2 s p q = Ok 0) -> snd (set_ cv so (TInv (IA2 A B)) X true mode s) = Err ZeroDivisionError).
Proof. intros. eapply set_A2_thm; eassumption. Qed.
Print Assumptions C34_angle.

Theorem C34_square :
  forall (K : Fld) (cv : convention) (so : list Z -> list Z) (s : ps K) (A B : Z) (X : K) (mode p q : Z) (rest : list Z), set_like so -> Forall (fun p => fresh p) s ->
  inr s A -> inr s B -> A <> B -> free_legs (length s) [A; B] = p :: q :: rest ->
  (first_l s A <> Some 0 -> nz (c_S2 s p q) ->
     exists s', set_ cv so (TInv (IS2 A B)) X true mode s = (s', Ok tt) /\
       made s s' (TInv (IS2 A B)) X [B; p; q] /\ keeps_r s s' B /\ keeps_l s s' p /\ keeps_l s s' q) /\
  ((first_l s A = Some 0 \/ c_S2 s p q = Ok 0) -> snd (set_ cv so (TInv (IS2 A B)) X true mode s) = Err ZeroDivisionError).
Proof. intros. eapply set_S2_thm; eassumption. Qed.
Print Assumptions C34_square.

Example C34_ex : set_like ns /\ Forall (fun p => fresh p) ex6 /\ inr ex6 1 /\ inr ex6 2 /\ free_legs (length ex6) [1; 2]%Z = [3; 4; 5; 6]%Z /\
  first_r ex6 1 <> Some 0 /\ nz (c_A2 ex6 3 4) /\ first_l ex6 1 <> Some 0 /\ nz (c_S2 ex6 3 4) /\ c_A2 ex6 1 2 <> Ok (g13 5).
Proof.
  split; [apply ns_set|]. split; [apply ex6_fresh|]. split; [apply inr6; lia|]. split; [apply inr6; lia|]. split; [reflexivity|].
  split; [apply (bool_neq (fun r => match r with Some x => feqb x (0 : GF13) | None => false end)); vm_compute; reflexivity|]. split; [nzt|].
  split; [apply (bool_neq (fun r => match r with Some x => feqb x (0 : GF13) | None => false end)); vm_compute; reflexivity|]. split; [nzt|].
  apply (bool_neq (fun r => match r with Ok x => feqb x (g13 5) | _ => false end)); vm_compute; reflexivity.
Qed.

(* ---- C35 ---- *)

(* the label of the left end does not occur in the middle *)
Theorem C35_head :
  forall (K : Fld) (cv : convention) (so : list Z -> list Z) (s : ps K) (o : obr) (a : Z) (ms : list (list Z)) (d : Z) (c : cbr) (X : K) (p q : Z) (rest : list Z) (w : v2 K), set_like so -> Forall (fun p => fresh p) s ->
  o <> OLt -> c = end_of o (length ms) -> ms <> [] -> entries_ok s ms -> legs_of s [a; d] ->
  ~ In a (concat ms) -> (a <> d \/ Nat.odd (length ms) = true) ->
  free_legs (length s) (a :: concat ms ++ [d]) = p :: q :: rest ->
  c_open_begin s (map ent ms) d c = Ok w ->
  (e0 w <> 0 -> nz (c_S2 s p q) -> exists s', set_ cv so (chain_t o a ms d c) X true 1 s = (s', Ok tt) /\
     made s s' (chain_t o a ms d c) X [a; p; q]) /\
  (e0 w = 0 -> snd (set_ cv so (chain_t o a ms d c) X true 1 s) = Err ZeroDivisionError).
Proof. intros. eapply set_chain_head; eassumption. Qed.
Print Assumptions C35_head.

(* equal ends and an even number of entries: a quadratic equation *)
Theorem C35_loop :
  forall (K : Fld) (cv : convention) (so : list Z -> list Z) (s : ps K) (o : obr) (a : Z) (ms : list (list Z)) (X : K) (p q : Z) (rest : list Z) (m : m2 K) (pa : particle K) (y : v2 K), set_like so -> Forall (fun p => fresh p) s ->
  o <> OLt -> ms <> [] -> Nat.even (length ms) = true -> entries_ok s ms -> legs_of s [a] -> ~ In a (concat ms) ->
  free_legs (length s) (a :: concat ms ++ [a]) = p :: q :: rest ->
  middle (oflag o) s (map ent ms) = Ok m -> getitem s a = Ok pa -> (if oflag o then r_d pa else l_d pa) = Some y ->
  quad_lead o m <> 0 -> fsqrt (quad_disc o m (e1 y) X) <> None -> nz (c_S2 s p q) ->
  exists s', set_ cv so (chain_t o a ms a (close_of o)) X true 1 s = (s', Ok tt) /\ made s s' (chain_t o a ms a (close_of o)) X [a; p; q].
Proof. intros. eapply set_chain_loop; eassumption. Qed.
Print Assumptions C35_loop.

(* only the right end is free: the string is reversed.  With an even number of entries the sign of
   the reversal is forgotten, and _set raises unless X = 0 *)
Theorem C35_tail :
  forall (K : Fld) (cv : convention) (so : list Z -> list Z) (s : ps K) (o : obr) (a : Z) (ms : list (list Z)) (d : Z) (c : cbr) (X : K) (p q : Z) (rest : list Z) (w : v2 K), set_like so -> Forall (fun p => fresh p) s ->
  o <> OLt -> c = end_of o (length ms) -> ms <> [] -> entries_ok s ms -> legs_of s [a; d] ->
  In a (concat ms) -> ~ In d (concat ms) ->
  free_legs (length s) (a :: concat ms ++ [d]) = p :: q :: rest ->
  c_open_begin s (map ent (rev ms)) a (close_of o) = Ok w -> e0 w <> 0 -> nz (c_S2 s p q) ->
  exists s', made s s' (chain_t o a ms d c) (rev_sign (length ms) X) [d; p; q] /\
    fst (set_ cv so (chain_t o a ms d c) X true 1 s) = s' /\
    (Nat.odd (length ms) = true \/ X = 0 -> snd (set_ cv so (chain_t o a ms d c) X true 1 s) = Ok tt) /\
    (Nat.even (length ms) = true -> X <> 0 -> snd (set_ cv so (chain_t o a ms d c) X true 1 s) = Err MyException).
Proof. intros. eapply set_chain_tail; eassumption. Qed.
Print Assumptions C35_tail.

(* both ends occur in the middle, or another mode: a label b that occurs only once in the first entry *)
Theorem C35_middle :
  forall (K : Fld) (cv : convention) (so : list Z -> list Z) (s : ps K) (o : obr) (a : Z) (m1 : list Z) (b : Z) (m2 : list Z) (ms : list (list Z)) (d : Z) (c : cbr) (X : K) (mode p q : Z) (rest : list Z), set_like so -> Forall (fun p => fresh p) s ->
  o <> OLt -> c = end_of o (S (length ms)) -> entries_ok s ((m1 ++ b :: m2) :: ms) -> legs_of s [a; d] ->
  ends_unused a ((m1 ++ b :: m2) :: ms) d mode ->
  (forall k, In k m1 -> In k (a :: concat ms ++ [d])) -> ~ In b (a :: m1 ++ m2 ++ concat ms ++ [d]) ->
  free_legs (length s) (a :: concat ((m1 ++ b :: m2) :: ms) ++ [d]) = p :: q :: rest ->
  (if oflag o then first_r s a else first_l s a) <> Some 0 -> nz (bracket s (swap_o o) b (map ent ms) d c) -> nz (c_S2 s p q) ->
  exists s', set_ cv so (chain_t o a ((m1 ++ b :: m2) :: ms) d c) X true mode s = (s', Ok tt) /\
     made s s' (chain_t o a ((m1 ++ b :: m2) :: ms) d c) X [b; p; q].
Proof. intros. eapply set_chain_middle; eassumption. Qed.
Print Assumptions C35_middle.

(* one free leg and no entry that can be replaced by its complement *)
Theorem C35_one_free :
  forall (K : Fld) (cv : convention) (so : list Z -> list Z) (s : ps K) (o : obr) (a : Z) (ms : list (list Z)) (d : Z) (c : cbr) (X : K) (p : Z) (w : v2 K), set_like so -> Forall (fun p => fresh p) s ->
  o <> OLt -> c = end_of o (length ms) -> ms <> [] -> entries_ok s ms -> legs_of s [a; d] ->
  ~ In a (concat ms) -> a <> d -> free_legs (length s) (a :: concat ms ++ [d]) = [p] ->
  try_flips so (length s) a ms d (seq 0 (length ms)) = Ok None ->
  c_open_begin s (map ent ms) d c = Ok w -> e0 w <> 0 ->
  exists s', fst (set_ cv so (chain_t o a ms d c) X true 1 s) = s' /\
    (snd (set_ cv so (chain_t o a ms d c) X true 1 s) = Err ZeroDivisionError \/
     (snd (set_ cv so (chain_t o a ms d c) X true 1 s) = Ok tt /\ made s s' (chain_t o a ms d c) X [a; p])).
Proof. intros. eapply set_chain_one; eassumption. Qed.
Print Assumptions C35_one_free.

(* an entry replaced by minus its complement *)
Theorem C35_flip :
  forall (K : Fld) (cv : convention) (so : list Z -> list Z) (s : ps K) (s' : ps K) (o : obr) (a : Z) (ms ms' : list (list Z)) (d : Z) (c : cbr) (X : K) (mode : Z) (T : list Z), set_like so -> o <> OLt -> entries_ok s ms -> entries_ok s ms' ->
  Forall (fun m => NoDup m) ms -> legs_of s [a; d] -> c = end_of o (length ms) -> ms <> [] ->
  (length (free_legs (length s) (a :: concat ms ++ [d])) < 2)%nat ->
  try_flips so (length s) a ms d (seq 0 (length ms)) = Ok (Some ms') ->
  set_ cv so (chain_t o a ms' d c) (- X) true mode s = (s', Ok tt) -> made s s' (chain_t o a ms' d c) (- X) T ->
  set_ cv so (chain_t o a ms d c) X true mode s = (s', Ok tt) /\ made s s' (chain_t o a ms d c) X T.
Proof. intros. eapply set_chain_flip; eassumption. Qed.
Print Assumptions C35_flip.

Example C35_ex : entries_ok ex6 [[2; 3]]%Z /\ free_legs (length ex6) (1 :: concat [[2; 3]] ++ [4])%Z = [5; 6]%Z /\
  (exists w, c_open_begin ex6 (map ent [[2; 3]]%Z) 4 CSq = Ok w /\ e0 w <> 0) /\ nz (c_S2 ex6 5 6) /\
  go6 (chain_t OAng 1 [[2; 3]] 4 CSq)%Z 5 1 = Ok tt /\ go6 (chain_t OAng 1 [[2; 3]; [3; 4]] 4 CAng)%Z 5 1 = Ok tt /\
  (* a loop *) go6 (chain_t OAng 1 [[2; 3]; [2; 4]] 1 CAng)%Z 5 1 = Ok tt /\ go6 (chain_t OAng 1 [[2; 3]; [2; 4]] 1 CAng)%Z 3 1 = Err ValueError /\
  (* the right end, odd *) go6 (chain_t OAng 1 [[1; 2]] 4 CSq)%Z 5 1 = Ok tt /\ go6 (chain_t OAng 1 [[1; 2]; [1; 3]; [2; 3]] 4 CSq)%Z 5 1 = Ok tt /\
  (* the middle *) go6 (chain_t OAng 1 [[1; 2; 3]] 3 CSq)%Z 5 1 = Ok tt /\ go6 (chain_t OAng 1 [[1; 2]; [1; 3]] 3 CAng)%Z 5 1 = Ok tt /\
  (* one free leg *) free_legs 6 (1 :: concat [[2; 3]; [3; 4]] ++ [5])%Z = [6]%Z /\ go6 (chain_t OAng 1 [[2; 3]; [3; 4]] 5 CAng)%Z 5 1 = Ok tt.
Proof.
  split. { constructor; [split; [discriminate|legs6]|constructor]. }
  split; [reflexivity|]. split. { exists (get_ok (V2 (0 : GF13) 0) (c_open_begin ex6 (map ent [[2; 3]]%Z) 4 CSq)). split; [fok|fneq]. }
  split; [nzt|]. repeat (split; [vm_compute; reflexivity|]). vm_compute. reflexivity.
Qed.
Theorem C35_tail_even_refuted :
  exists (s : ps GF13) (t : target) (X : GF13), Forall (fun p => fresh p) s /\ total_mom s = mzero /\ t = chain_t OAng 1 [[1; 2]; [2; 3]]%Z 4 CAng /\
    snd (set_ Symmetric ns t X true 1 s) = Err MyException.
Proof. exists ex6, (chain_t OAng 1 [[1; 2]; [2; 3]]%Z 4 CAng), (g13 5). split; [apply ex6_fresh|]. split; [apply ex6_total|]. split; [reflexivity|]. vm_compute. reflexivity. Qed.
Print Assumptions C35_tail_even_refuted.
(* an odd string whose only unique label is in its last entry: a malformed string is built *)
Theorem C35_last_entry_refuted :
  exists (s : ps GF13) (t : target) (X : GF13), Forall (fun p => fresh p) s /\ total_mom s = mzero /\ t = chain_t OAng 1 [[1; 3]; [1; 3]; [1; 2; 3]]%Z 3 CSq /\
    snd (set_ Symmetric ns t X true 1 s) = Err SyntaxError.
Proof. exists ex6, (chain_t OAng 1 [[1; 3]; [1; 3]; [1; 2; 3]]%Z 3 CSq), (g13 5). split; [apply ex6_fresh|]. split; [apply ex6_total|]. split; [reflexivity|]. vm_compute. reflexivity. Qed.
Print Assumptions C35_last_entry_refuted.
(* replacing an entry by its complement leads to the reversal above *)
Theorem C35_flip_tail_refuted :
  exists (s : ps GF13) (t : target) (X : GF13), Forall (fun p => fresh p) s /\ total_mom s = mzero /\ t = chain_t OAng 1 [[2; 3]; [4; 5]]%Z 2 CAng /\
    snd (set_ Symmetric ns t X true 1 s) = Err MyException.
Proof. exists ex6, (chain_t OAng 1 [[2; 3]; [4; 5]]%Z 2 CAng), (g13 5). split; [apply ex6_fresh|]. split; [apply ex6_total|]. split; [reflexivity|]. vm_compute. reflexivity. Qed.
Print Assumptions C35_flip_tail_refuted.

(* ---- C36 ---- *)

Theorem C36_sijk :
  forall (K : Fld) (cv : convention) (so : list Z -> list Z) (s : ps K) (i : Z) (js : list Z) (X : K) (mode p q : Z) (rest : list Z) (w : v2 K), set_like so -> Forall (fun p => fresh p) s ->
  NoDup (i :: js) -> (2 <= length js)%nat -> legs_of s (i :: js) -> mode = 1%Z \/ mode = 2%Z ->
  free_legs (length s) (i :: js) = p :: q :: rest ->
  c_open_begin s [ent js] i (sijk_c mode) = Ok w ->
  (e0 w <> 0 -> nz (c_S2 s p q) -> exists s', set_ cv so (TInv (IS (i :: js))) X true mode s = (s', Ok tt) /\
     made s s' (TInv (IS (i :: js))) X [i; p; q]) /\
  (e0 w = 0 -> snd (set_ cv so (TInv (IS (i :: js))) X true mode s) = Err ZeroDivisionError).
Proof. intros. eapply set_S_thm; eassumption. Qed.
Print Assumptions C36_sijk.

(* when only one leg is missing, s_I is the square of that leg *)
Theorem C36_all_but_one :
  forall (K : Fld) (s : ps K) (m : list Z) (p : Z), NoDup m -> m <> [] -> legs_of s m -> free_legs (length s) m = [p] ->
  Forall (fun p => fresh p) s -> total_mom s = mzero -> c_target s (TInv (IS m)) = Ok 0.
Proof. intros. eapply S_all_but_one; eassumption. Qed.
Print Assumptions C36_all_but_one.

(* two labels: nothing is done, so _set returns exactly when s_ij had the value before *)
Theorem C36_two_labels :
  forall (K : Fld) (cv : convention) (so : list Z -> list Z) (s : ps K) (i j : Z) (X : K) (mode : Z),
  set_inner cv so (TInv (IS [i; j])) X true mode s = (s, Ok tt).
Proof. intros. reflexivity. Qed.
Print Assumptions C36_two_labels.
Theorem C36_two_labels_refuted :
  exists (s : ps GF13) (X : GF13), Forall (fun p => fresh p) s /\ total_mom s = mzero /\ snd (set_ Symmetric ns (TInv (IS [1; 2]%Z)) X true 1 s) = Err MyException.
Proof. exists ex6, (g13 5). split; [apply ex6_fresh|]. split; [apply ex6_total|]. vm_compute. reflexivity. Qed.
Print Assumptions C36_two_labels_refuted.
Example C36_ex : NoDup [1; 2; 3]%Z /\ free_legs (length ex6) [1; 2; 3]%Z = [4; 5; 6]%Z /\
  (exists w, c_open_begin ex6 [ent [2; 3]%Z] 1 (sijk_c 1) = Ok w /\ e0 w <> 0) /\ (exists w, c_open_begin ex6 [ent [2; 3]%Z] 1 (sijk_c 2) = Ok w /\ e0 w <> 0) /\ nz (c_S2 ex6 4 5) /\
  go6 (TInv (IS [1; 2; 3]%Z)) 5 1 = Ok tt /\ go6 (TInv (IS [1; 2; 3]%Z)) 5 2 = Ok tt /\ go6 (TInv (IS [1; 2; 3; 4]%Z)) 5 1 = Ok tt /\
  free_legs (length ex6) [1; 2; 3; 4; 5]%Z = [6]%Z /\ go6 (TInv (IS [1; 2; 3; 4; 5]%Z)) 5 1 = Err MyException.
Proof.
  split; [repeat constructor; cbn; lia|]. split; [reflexivity|].
  split. { exists (get_ok (V2 (0 : GF13) 0) (c_open_begin ex6 [ent [2; 3]%Z] 1 (sijk_c 1))). split; [fok|fneq]. }
  split. { exists (get_ok (V2 (0 : GF13) 0) (c_open_begin ex6 [ent [2; 3]%Z] 1 (sijk_c 2))). split; [fok|fneq]. }
  split; [nzt|]. repeat (split; [vm_compute; reflexivity|]). vm_compute. reflexivity.
Qed.

(* ---- C37 ---- *)

(* an explicit list of three corners; modes 2j+1 and 2j+2 solve for the j-th leg of the first corner *)
Theorem C37_Delta :
  forall (K : Fld) (cv : convention) (so : list Z -> list Z) (s : ps K) (h : list Z) (k : Z) (t c1 z : list Z) (y x : Z) (X : K) (mode : Z) (qs : ps K), Forall (fun p => fresh p) s ->
  NoDup ((h ++ k :: t) ++ c1 ++ (z ++ [y; x])) -> legs_of s ((h ++ k :: t) ++ c1 ++ (z ++ [y; x])) ->
  h ++ t <> [] -> c1 <> [] -> (mode = 2 * zlen h + 1 \/ mode = 2 * zlen h + 2)%Z ->
  cluster cv [h ++ t; c1; z ++ [y; x]] s = Ok qs ->
  outcome cv so s (TInv (IDelta [h ++ k :: t; c1; z ++ [y; x]])) X mode [k; x; y].
Proof. intros. eapply set_Delta_thm; eassumption. Qed.
Print Assumptions C37_Delta.

Theorem C37_Delta_ijk :
  forall (K : Fld) (cv : convention) (so : list Z -> list Z) (s : ps K) (i j k' : Z) (h : list Z) (k : Z) (t c1 z : list Z) (y x : Z) (X : K) (mode : Z) (qs : ps K), Forall (fun p => fresh p) s ->
  three_arcs (length s) i j k' (h ++ k :: t) c1 (z ++ [y; x]) ->
  h ++ t <> [] -> (mode = 2 * zlen h + 1 \/ mode = 2 * zlen h + 2)%Z ->
  cluster cv [h ++ t; c1; z ++ [y; x]] s = Ok qs ->
  outcome cv so s (TInv (IDelta3 [i; j; k'])) X mode [k; x; y].
Proof. intros. eapply set_Dijk_thm; eassumption. Qed.
Print Assumptions C37_Delta_ijk.

Example C37_ex : three_arcs (length ex6) 1 3 5 ([] ++ 1 :: [2])%Z [3; 4]%Z ([] ++ [5; 6])%Z /\
  (exists qs, cluster Symmetric [[] ++ [2]; [3; 4]; [] ++ [5; 6]]%Z ex6 = Ok qs) /\
  map (fun X => go6 (TInv (IDelta3 [1; 3; 5]%Z)) X 1) [0; 1; 2; 3]%Z = [Ok tt; Ok tt; Err ValueError; Ok tt] /\
  map (fun X => go6 (TInv (IDelta [[1; 2]; [3]; [4; 5; 6]]%Z)) X 1) [0; 1; 2; 3]%Z = [Ok tt; Ok tt; Err ValueError; Ok tt].
Proof.
  split; [apply ex6_arcs|]. split. { exists (get_ok ([] : ps GF13) (cluster Symmetric [[] ++ [2]; [3; 4]; [] ++ [5; 6]]%Z ex6)). fok. }
  split; vm_compute; reflexivity.
Qed.

(* ---- C38 ---- *)

Theorem C38_Omega :
  forall (K : Fld) (cv : convention) (so : list Z -> list Z) (s : ps K) (A B C D E F : Z) (l1 : list Z) (X : K), Forall (fun p => fresh p) s ->
  three_arcs (length s) C E A [C; D] (E :: F :: l1) [A; B] ->
  outcome cv so s (TInv (IOm [C; E; A])) X 1 [A; E; F].
Proof. intros. eapply set_Omega_thm; eassumption. Qed.
Print Assumptions C38_Omega.

Theorem C38_Pi :
  forall (K : Fld) (cv : convention) (so : list Z -> list Z) (s : ps K) (A B C D : Z) (l0 : list Z) (E F : Z) (l1 : list Z) (X : K), Forall (fun p => fresh p) s ->
  three_arcs (length s) C E A (C :: D :: l0) (E :: F :: l1) [A; B] ->
  outcome cv so s (TInv (IPi [C; E; A])) X 1 [A; E; F] /\ snd (set_ cv so (TInv (IPi [C; E; A])) X true 1 s) <> Err ValueError.
Proof. intros. eapply set_Pi_thm; eassumption. Qed.
Print Assumptions C38_Pi.

Example C38_ex : three_arcs (length ex6) 3 5 1 [3; 4]%Z [5; 6]%Z [1; 2]%Z /\
  map (fun X => go6 (TInv (IOm [3; 5; 1]%Z)) X 1) [0; 3; 4; 6]%Z = [Err ValueError; Ok tt; Ok tt; Ok tt] /\
  map (fun X => go6 (TInv (IPi [3; 5; 1]%Z)) X 1) [0; 1; 2]%Z = [Ok tt; Ok tt; Ok tt].
Proof. split; [apply (arcs_iff 6 3 5 1 7); try lia; reflexivity|]. split; vm_compute; reflexivity. Qed.
(* an arc with one leg: the two legs the code takes from each arc are not there *)
Theorem C38_short_arc_refuted :
  exists (s : ps GF13) (i j k : Z) (A B C : list Z), three_arcs (length s) i j k A B C /\
    forall X : GF13, snd (set_ Symmetric ns (TInv (IOm [i; j; k])) X true 1 s) = Err IndexError /\ snd (set_ Symmetric ns (TInv (IPi [i; j; k])) X true 1 s) = Err IndexError.
Proof.
  exists ex6, 1%Z, 2%Z, 5%Z, [1]%Z, [2; 3; 4]%Z, [5; 6]%Z. split; [apply (arcs_iff 6 1 2 5 7); try lia; reflexivity|].
  intros X. split; reflexivity.
Qed.
Print Assumptions C38_short_arc_refuted.

(* ---- C39 ---- *)

Theorem C39_tr5 :
  forall (K : Fld) (cv : convention) (so : list Z -> list Z) (s : ps K) (ta tb tc td : entry) (a : Z) (mb mc md : list Z) (X : K) (mode p q : Z) (rest : list Z) (x y : v2 K),
  set_like so -> Forall (fun p => fresh p) s -> (6 <= length s)%nat ->
  tr5_rotate 4 ta tb tc td = Ok (leg a, ent mb, ent mc, ent md) ->
  inr s a -> mb <> [] -> mc <> [] -> md <> [] -> legs_of s (mb ++ mc ++ md) -> ~ In a (mb ++ mc ++ md) ->
  free_legs (length s) (a :: mb ++ mc ++ md) = p :: q :: rest ->
  c_open_end s OSq a [ent mb; ent mc; ent md] = Ok x -> c_open_end s OSq a [ent md; ent mc; ent mb] = Ok y ->
  (e0 (vsub x y) <> 0 -> nz (c_S2 s p q) ->
     exists s', set_ cv so (TInv (ITr5 ta tb tc td)) X true mode s = (s', Ok tt) /\
       made s s' (TInv (ITr5 ta tb tc td)) X [a; p; q] /\ keeps_l s s' a /\ keeps_l s s' p /\ keeps_l s s' q) /\
  (e0 (vsub x y) = 0 \/ c_S2 s p q = Ok 0 -> snd (set_ cv so (TInv (ITr5 ta tb tc td)) X true mode s) = Err ZeroDivisionError).
Proof. intros. eapply set_tr5_thm; eassumption. Qed.
Print Assumptions C39_tr5.

(* five legs: the solution is for tr5_1234, whatever the labels are *)
Theorem C39_tr5_five :
  forall (K : Fld) (cv : convention) (so : list Z -> list Z) (s : ps K) (a b c d : Z) (X : K) (mode : Z), set_like so -> Forall (fun p => fresh p) s -> length s = 5%nat ->
  legs_of s [a; b; c; d] ->
  let t := TInv (ITr5 (leg a) (leg b) (leg c) (leg d)) in
  snd (set_ cv so t X true mode s) = Err ZeroDivisionError \/
  exists s', made s s' t (zf (sign5 a b c d) * X) [1; 2; 3; 4; 5]%Z /\
    Forall (fun k => keeps_l s s' k) [1; 2; 3; 4]%Z /\ Forall (fun k => keeps_r s s' k) [2; 3; 4]%Z /\
    (zf (sign5 a b c d) * X = X -> set_ cv so t X true mode s = (s', Ok tt)) /\
    (zf (sign5 a b c d) * X <> X -> set_ cv so t X true mode s = (s', Err MyException)).
Proof. intros. eapply set_tr5_five_thm; eassumption. Qed.
Print Assumptions C39_tr5_five.

(* every entry longer than one character *)
Theorem C39_tr5_no_single :
  forall (K : Fld) (cv : convention) (so : list Z -> list Z) (s : ps K) (ta tb tc td : entry) (X : K) (mode : Z) (fx : bool) (e : exn), tr5_rotate 4 ta tb tc td = Err e ->
  snd (set_ cv so (TInv (ITr5 ta tb tc td)) X fx mode s) = Err e.
Proof. intros. eapply set_tr5_rotate_err; eassumption. Qed.
Print Assumptions C39_tr5_no_single.

Theorem C39_five_brackets :
  forall (K : Fld) (cv : convention) (so : list Z -> list Z) (s : ps K) (a b c d e f : Z) (X : K) (mode : Z) (x y : K) (pa pb : particle K) (la lb : v2 K),
  Forall (fun p => fresh p) s -> total_mom s = mzero -> legs_of s [a; b; c; d; e; f] ->
  ~ In e [a; b; f] -> NoDup [c; d; e] -> ~ In c [a; b; f] -> ~ In d [a; b; f] ->
  c_chain s OAng a [leg b; esum c [d]] e CAng = Ok x -> c_chain s OAng b [leg f; esum c [d]] e CAng = Ok y ->
  getitem s a = Ok pa -> l_d pa = Some la -> getitem s b = Ok pb -> l_d pb = Some lb ->
  (x * e0 la - y * e0 lb <> 0 -> nz (c_S2 s c d) ->
     exists s', set_ cv so (T5B a b c d e f) X true mode s = (s', Ok tt) /\
       made s s' (T5B a b c d e f) X [e; c; d] /\ keeps_r s s' e /\ keeps_l s s' c /\ keeps_l s s' d) /\
  (x * e0 la - y * e0 lb = 0 \/ c_S2 s c d = Ok 0 -> snd (set_ cv so (T5B a b c d e f) X true mode s) = Err ZeroDivisionError).
Proof. intros. eapply set_5B_thm; eassumption. Qed.
Print Assumptions C39_five_brackets.

Definition ex5b : ps GF13 := from_spinors
  [(V2 (g13 1) (g13 7), V2 (g13 3) (g13 2)); (V2 (g13 11) (g13 12), V2 (g13 6) (g13 12)); (V2 (g13 2) (g13 5), V2 (g13 11) (g13 4));
   (V2 (g13 10) (g13 6), V2 (g13 10) (g13 8)); (V2 (g13 6) (g13 11), V2 (g13 6) (g13 3))].
Definition tr5_t (a b c d : Z) : target := TInv (ITr5 (leg a) (leg b) (leg c) (leg d)).
Example C39_ex : Forall (fun p => fresh p) ex5b /\ length ex5b = 5%nat /\ legs_of ex5b [1; 2; 3; 4]%Z /\
  snd (set_ Symmetric ns (tr5_t 1 2 3 4) (g13 5) true 1 ex5b) = Ok tt /\ snd (set_ Symmetric ns (tr5_t 2 3 4 5) (g13 5) true 1 ex5b) = Ok tt /\
  go6 (tr5_t 1 2 3 4) 5 1 = Ok tt /\ go6 (T5B 1 2 3 4 5 6) 5 1 = Ok tt /\
  tr5_rotate 4 (leg 1) (leg 2) (leg 3) (leg 4) = Ok (leg 1, ent [2]%Z, ent [3]%Z, ent [4]%Z) /\ free_legs (length ex6) [1; 2; 3; 4]%Z = [5; 6]%Z.
Proof. split; [apply from_spinors_fresh|]. split; [reflexivity|]. split; [legs6|]. repeat (split; [vm_compute; reflexivity|]). reflexivity. Qed.
Theorem C39_tr5_odd_refuted :
  exists (s : ps GF13) (X : GF13), Forall (fun p => fresh p) s /\ length s = 5%nat /\
    snd (set_ Symmetric ns (tr5_t 1 2 3 4) X true 1 s) = Ok tt /\ snd (set_ Symmetric ns (tr5_t 2 1 3 4) X true 1 s) = Err MyException.
Proof. exists ex5b, (g13 5). split; [apply from_spinors_fresh|]. split; [reflexivity|]. split; vm_compute; reflexivity. Qed.
Print Assumptions C39_tr5_odd_refuted.
