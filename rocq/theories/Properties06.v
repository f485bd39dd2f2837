(* C16-C18, C48: clusters, massive fermions, internal masses. *)
From Coq Require Import Ascii String.
From Coq Require Import List ZArith Bool Lia Permutation.
From Verif Require Import Base Fld Particle ParticleSpec ParticleThm Index IndexThm Phase PhaseSpec PhaseThm Det Arcs Compute ComputeSpec ComputeThm Cluster ClusterSpec ClusterThm Symm SymmSpec SymmThm Str Masses MassesSpec MassesThm FldInst Properties03 Properties04.
Import ListNotations.
Open Scope fld_scope.
Ltac fz := repeat first [apply Forall_nil | apply Forall_cons].

(* C16 *)
Theorem C16_momentum :
  forall (K : Fld) cv (cs : list (list Z)) (s s' : ps K), cluster cv cs s = Ok s' ->
  length s' = length cs /\
  (sound s -> sound s') /\
  (forall k c, getitem cs k = Ok c -> exists p, getitem s' k = Ok p /\ mom_sum false s c = Ok (r2 p) /\ (forall i, c = [i] -> getitem s i = Ok p)) /\
  (Permutation (concat cs) (upto (length s)) -> total_mom s' = total_mom s).
Proof.
  intros K cv cs s s' E. split; [exact (cluster_length cv cs s s' E)|]. split; [exact (cluster_sound cv cs s s' E)|]. split.
  - intros k c G. destruct (cluster_get cv cs s s' k c E G) as (p & Gp & C). exists p. apply corner_sum_spec in C as (M & O & _). auto.
  - exact (total_cluster cv cs s s' E).
Qed.
Print Assumptions C16_momentum.
(* s_I, masses, traces, chains with one-leg ends, Gram determinants: every string over
   the clusters has the value of the string with each label replaced by its corner *)
Theorem C16_invariants :
  forall (K : Fld) cv (cs : list (list Z)) (s s' : ps K) (e : inv), cluster cv cs s = Ok s' -> sound s -> over_clusters cs e ->
  compute s' e = compute s (expand cs e).
Proof. exact (fun K cv cs s s' e E S O => cluster_compute cv cs s s' E S e O). Qed.
Print Assumptions C16_invariants.
Theorem C16_defined :
  forall (K : Fld) (cs : list (list Z)) (s : ps K), Forall (fun c => c <> [] /\ Forall (fun i => (1 <= i <= zlen s)%Z) c) cs ->
  exists s', cluster Symmetric cs s = Ok s'.
Proof. exact (fun K cs s => @cluster_ok K cs s). Qed.
Print Assumptions C16_defined.
Definition corners6 : list (list Z) := [[1; 2]; [3]; [6; 4]; [5]]%Z.
Example C16_ex : exists s', cluster Symmetric corners6 ex6 = Ok s' /\ sound ex6 /\ Permutation (concat corners6) (upto (length ex6)) /\
  over_clusters corners6 (IChain OAng 2 [eplus (leg 1) (leg 3)] 4 CSq) /\ over_clusters corners6 (IDelta [[1]; [2; 4]; [3]]%Z) /\
  expand corners6 (IChain OAng 2 [eplus (leg 1) (leg 3)] 4 CSq) = IChain OAng 3 [eplus (eplus (eplus (leg 1) (leg 2)) (leg 6)) (leg 4)] 5 CSq /\
  expand corners6 (IDelta [[1]; [2; 4]; [3]]%Z) = IDelta [[1; 2]; [3; 5]; [6; 4]]%Z.
Proof.
  exists (get_ok [] (cluster Symmetric corners6 ex6)). split; [fok|]. split; [apply ex6_sound|]. split.
  { apply NoDup_Permutation_bis; [repeat constructor; cbn; lia|cbn; lia|]. intros x I. cbn in *. lia. }
  split.
  { cbn [over_clusters]. split; [exists 3%Z; reflexivity|]. split; [|exists 5%Z; reflexivity].
    apply Forall_cons; [|constructor]. split; [unfold in_range; cbn; lia|]. apply Forall_cons; [unfold in_range; cbn; lia|constructor]. }
  split.
  { cbn [over_clusters]. fz; unfold in_range; cbn; lia. }
  split; reflexivity.
Qed.
(* a corner without legs puts a number into the list of particles *)
Theorem C16_empty_corner_refuted : exists (s : ps GF13) (cs : list (list Z)), sound s /\ Forall (Forall (fun i => (1 <= i <= zlen s)%Z)) cs /\ cluster Symmetric cs s = Err TypeError.
Proof. exists ex6, [[1; 2]; []]%Z. split; [apply ex6_sound|]. split; [fz; cbn; lia|ferr]. Qed.
Print Assumptions C16_empty_corner_refuted.

(* C17: with m = <a|b> and m' = [b|a] of the two legs of the corner, for both positions
   of the spin index and both of its values:
     P|k> = m|k],  P|k] = m'|k>,  <k|P = -m[k|,  [k|P = -m'<k|,  P^2 = m m' *)
Theorem C17_dirac :
  forall (K : Fld) cv cs fs (s t : ps K) k pos i a b, cluster_fermions cv cs fs s = Ok t -> NoDup (map (fun f => fst (fst f)) fs) -> sound s ->
  In (k, pos, i) fs -> getitem cs k = Ok [a; b] -> massless_leg s a -> massless_leg s b ->
  exists m m' ket ketsq bra brasq,
    compute s (IA2 a b) = Ok (VS m) /\ compute s (IS2 b a) = Ok (VS m') /\
    compute t (IAd k) = Ok (VCol ket) /\ compute t (ISu k) = Ok (VCol ketsq) /\
    compute t (IAu k) = Ok (VRow bra) /\ compute t (ISd k) = Ok (VRow brasq) /\
    compute t (IOpenBegin [leg k] k CAng) = Ok (VCol (vscale m ketsq)) /\
    compute t (IOpenBegin [leg k] k CSq) = Ok (VCol (vscale m' ket)) /\
    compute t (IOpenEnd OAng k [leg k]) = Ok (VRow (vscale (- m) brasq)) /\
    compute t (IOpenEnd OSq k [leg k]) = Ok (VRow (vscale (- m') bra)) /\
    compute t (IM k) = Ok (VS (m * m')) /\ compute s (IS [a; b]) = Ok (VS (m * m')).
Proof.
  intros K cv cs fs s t k pos i a b E ND S I G Ma Mb.
  destruct (fermion_dirac cv cs fs s t k pos i a b E ND S I G Ma Mb) as (m & m' & r & l & H1 & H2 & H3 & H4 & H5 & H6 & H7 & H8 & H9 & H10 & H11 & H12).
  exists m, m', r, l, (raise_r r), (V2 (- e1 l) (e0 l)). split; [cbn [compute]; rewrite H1; reflexivity|]. split; [cbn [compute]; rewrite H2; reflexivity|].
  repeat (split; [assumption|]). cbn [compute]. rewrite H12. reflexivity.
Qed.
Print Assumptions C17_dirac.
(* the sum over the spin index, with index_value = all *)
Theorem C17_completeness :
  forall (K : Fld) cv (s : ps K) a b p F G m m', sound s -> massless_leg s a -> massless_leg s b -> corner_sum cv s [a; b] = Ok p ->
  c_A2 s a b = Ok m -> c_S2 s b a = Ok m' ->
  spinors_all Up s a b = Ok F -> spinors_all Down s a b = Ok G ->
  mmul (f_rd F) (f_ld G) = r2b p /\ mmul (f_lu G) (f_ru F) = r2 p /\
  mmul (f_rd G) (f_ld F) = mopp (r2b p) /\ mmul (f_lu F) (f_ru G) = mopp (r2 p) /\
  mmul (f_ru F) (f_rd F) = mscale m LeviCivita /\ mmul (f_ru G) (f_rd G) = mscale m LeviCivita /\
  mmul (f_ld F) (f_lu F) = mscale (- m') LeviCivita /\ mmul (f_ld G) (f_lu G) = mscale (- m') LeviCivita.
Proof. exact (fun K cv s a b p F G m m' => @all_complete K cv s a b p F G m m'). Qed.
Print Assumptions C17_completeness.
(* an integer index_value selects a column of the kets and a row of the bras *)
Theorem C17_slices :
  forall (K : Fld) pos (s : ps K) a b F i r l, spinors_all pos s a b = Ok F ->
  (exists R L, fermion_spinors pos s a b = Ok (R, L) /\ mcol R i = Ok r /\ mrow L i = Ok l) <->
  mcol (f_rd F) i = Ok r /\ mrow (f_ru F) i = Ok (raise_r r) /\ mrow (f_ld F) i = Ok l /\ mcol (f_lu F) i = Ok (raise_r l).
Proof. exact (fun K pos s a b F i r l => @all_slices K pos s a b F i r l). Qed.
Print Assumptions C17_slices.
(* only the named legs change, and of these only the spinors and the spin index *)
Theorem C17_frame :
  forall (K : Fld) cv cs fs (s t : ps K), cluster_fermions cv cs fs s = Ok t -> NoDup (map (fun f => fst (fst f)) fs) ->
  exists t0, cluster cv cs s = Ok t0 /\ length t = length t0 /\
    (forall k, ~ In k (map (fun f => fst (fst f)) fs) -> getitem t k = getitem t0 k) /\
    (forall k pos i, In (k, pos, i) fs -> exists p q, getitem t0 k = Ok p /\ getitem t k = Ok q /\ r2 q = r2 p /\ r2b q = r2b p).
Proof.
  intros K cv cs fs s t E ND. destruct (fermions_spec cv cs fs s t E ND) as (t0 & E0 & L & H & O). exists t0. split; [exact E0|]. split; [exact L|]. split; [exact O|].
  intros k pos i I. destruct (H _ I) as (a & b & R & L' & r & l & p & _ & _ & _ & _ & Gp & Gq). exists p, (fermion_leg (up_of pos) r l p). auto.
Qed.
Print Assumptions C17_frame.
Example C17_ex : exists t m, cluster_fermions Symmetric corners6 [(1%Z, Up, 2%Z); (3%Z, Down, 1%Z)] ex6 = Ok t /\
  NoDup (map (fun f : Z * position * Z => fst (fst f)) [(1%Z, Up, 2%Z); (3%Z, Down, 1%Z)]) /\ sound ex6 /\
  massless_leg ex6 6 /\ massless_leg ex6 4 /\ c_A2 ex6 6 4 = Ok m /\ m <> 0.
Proof.
  exists (get_ok [] (cluster_fermions Symmetric corners6 [(1%Z, Up, 2%Z); (3%Z, Down, 1%Z)] ex6)), (get_ok 0 (c_A2 ex6 6 4)).
  split; [fok|]. split; [repeat constructor; cbn; lia|]. split; [apply ex6_sound|]. split; [apply ex6_leg; lia|]. split; [apply ex6_leg; lia|]. split; [fok|fneq].
Qed.

(* C18: an alias that is exactly a corner, in the same order, with no earlier corner that
   is a beginning of it.  Missing: aliases that are unions of several corners, or a
   corner in another order (refuted below). *)
Theorem C18_alias_partial :
  forall (K : Fld) cv cs (s s' : ps K) (A A' : dict (mval K)) (n : pystr) (underscore : bool) (c : list Z) (j : nat),
  cluster cv cs s = Ok s' -> sound s -> cluster_masses cs A = Ok A' ->
  (length cs <= 9)%nat -> Forall (Forall digit_label) cs -> nth_error cs j = Some c ->
  (forall i d r, (i < j)%nat -> nth_error cs i = Some d -> c = d ++ r -> r = []) ->
  mass_name n -> dict_get n A = Some (MStr (alias underscore c)) ->
  compute_name s' A' n = compute_name s A n /\ compute_name s A n = c_S s c.
Proof. exact (fun K cv cs s s' A A' n us c j => @alias_clustered K cv cs s s' A A' n us c j). Qed.
Print Assumptions C18_alias_partial.
Theorem C18_numbers :
  forall (K : Fld) cs (s s' : ps K) (A A' : dict (mval K)) (n : pystr) (x : K), cluster_masses cs A = Ok A' ->
  mass_name n -> dict_get n A = Some (MNum x) -> compute_name s A n = Ok x /\ compute_name s' A' n = Ok x.
Proof.
  intros K cs s s' A A' n x M Mn G. split; [exact (number_compute s A n x Mn G)|]. destruct (cluster_masses_get cs A A' n M) as [_ H]. rewrite G in H.
  destruct H as (v & [= <-] & G'). exact (number_compute s' A' n x Mn G').
Qed.
Print Assumptions C18_numbers.
Definition m_t : pystr := lit "m_t".
Definition masses6 (t : pystr) : dict (mval GF13) := [(m_t, MStr t); (lit "M_W", MNum (g13 5))].
Example C18_ex : exists s' A', cluster Symmetric corners6 ex6 = Ok s' /\ cluster_masses corners6 (masses6 (lit "s_64")) = Ok A' /\
  (length corners6 <= 9)%nat /\ Forall (Forall digit_label) corners6 /\ nth_error corners6 2 = Some [6; 4]%Z /\
  (forall i d r, (i < 2)%nat -> nth_error corners6 i = Some d -> [6; 4]%Z = d ++ r -> r = []) /\
  mass_name m_t /\ dict_get m_t (masses6 (lit "s_64")) = Some (MStr (alias true [6; 4]%Z)) /\ dict_get m_t A' = Some (MStr (lit "s_3")).
Proof.
  exists (get_ok [] (cluster Symmetric corners6 ex6)), [(m_t, MStr (lit "s_3")); (lit "M_W", MNum (g13 5))]. split; [fok|]. split; [reflexivity|].
  split; [cbn; lia|]. split; [fz; unfold digit_label; lia|]. split; [reflexivity|]. split.
  - intros [|[|i]] d r L N E; cbn in N; [injection N as <-; discriminate|injection N as <-; discriminate|lia].
  - split; [repeat split|]. split; reflexivity.
Qed.
(* the rewriting replaces a beginning of the alias that is a corner and keeps the rest:
   s_123 with corners (1,2), (3), (4), (5,6) becomes s_13, that is legs 1, 2, 4 *)
Theorem C18_union_refuted :
  exists (s s' : ps GF13) cs A A' x y, sound s /\ cluster Symmetric cs s = Ok s' /\ cluster_masses cs A = Ok A' /\
    Permutation (concat cs) (upto (length s)) /\ firstn 2 cs = [[1; 2]; [3]]%Z /\ dict_get m_t A = Some (MStr (lit "s_123")) /\
    compute_name s A m_t = Ok x /\ compute_name s' A' m_t = Ok y /\ x <> y.
Proof.
  set (cs := [[1; 2]; [3]; [4]; [5; 6]]%Z). set (A := masses6 (lit "s_123")).
  exists ex6, (get_ok [] (cluster Symmetric cs ex6)), cs, A, (masses6 (lit "s_13")), (get_ok 0 (compute_name ex6 A m_t)),
    (get_ok 0 (compute_name (get_ok [] (cluster Symmetric cs ex6)) (masses6 (lit "s_13")) m_t)).
  split; [apply ex6_sound|]. split; [fok|]. split; [reflexivity|]. split.
  { apply NoDup_Permutation_bis; [repeat constructor; cbn; lia|cbn; lia|]. intros x I. cbn in *. lia. }
  split; [reflexivity|]. split; [reflexivity|]. split; [fok|]. split; [fok|fneq].
Qed.
Print Assumptions C18_union_refuted.
(* s_21 is not rewritten by the corner (1,2), and afterwards names the clusters 2 and 1 *)
Theorem C18_order_refuted :
  exists (s s' : ps GF13) cs A A' x y, sound s /\ cluster Symmetric cs s = Ok s' /\ cluster_masses cs A = Ok A' /\
    Permutation (concat cs) (upto (length s)) /\ firstn 1 cs = [[1; 2]]%Z /\ dict_get m_t A = Some (MStr (lit "s_21")) /\
    compute_name s A m_t = Ok x /\ compute_name s' A' m_t = Ok y /\ x <> y.
Proof.
  set (cs := [[1; 2]; [3]; [4]; [5; 6]]%Z). set (A := masses6 (lit "s_21")).
  exists ex6, (get_ok [] (cluster Symmetric cs ex6)), cs, A, A, (get_ok 0 (compute_name ex6 A m_t)),
    (get_ok 0 (compute_name (get_ok [] (cluster Symmetric cs ex6)) A m_t)).
  split; [apply ex6_sound|]. split; [fok|]. split; [reflexivity|]. split.
  { apply NoDup_Permutation_bis; [repeat constructor; cbn; lia|cbn; lia|]. intros x I. cbn in *. lia. }
  split; [reflexivity|]. split; [reflexivity|]. split; [fok|]. split; [fok|fneq].
Qed.
Print Assumptions C18_order_refuted.
(* no corners at all: the empty pattern matches and its lookup fails *)
Theorem C18_no_corners_refuted : cluster_masses [] (masses6 (lit "s_12")) = Err KeyError.
Proof. reflexivity. Qed.
Print Assumptions C18_no_corners_refuted.

(* C48.  Restricted to programs that give a set to at most one point and give no list
   or tuple; for these see the refutations. *)
Theorem C48_listed_partial :
  forall (K : Fld) (l : list (op K)), fair_run l world0 ->
  let w := run l world0 in
  forall i o, nth_error (objs w) i = Some o ->
  (forall n, In n (internal_masses w o) <-> dict_get n (attrs o) <> None) /\
  exists d, internal_masses_dict w o = Ok d /\ forall n, dict_get n d = dict_get n (attrs o).
Proof.
  intros K l F w i o N. pose proof (fair_tidy l world0 tidy0 F) as T. split; [|exact (tidy_dict w i o T N)].
  destruct (proj1 T i o N) as (k & Ek & _ & B). unfold internal_masses. rewrite Ek. exact B.
Qed.
Print Assumptions C48_listed_partial.
(* every later assignment is recorded, is what compute returns, and touches nothing else *)
Theorem C48_assign_partial :
  forall (K : Fld) (l : list (op K)) i o n v, fair_run l world0 -> mass_name n -> nth_error (objs (run l world0)) i = Some o ->
  exists w' o', assign i n v (run l world0) = (w', Ok tt) /\ nth_error (objs w') i = Some o' /\
    In n (internal_masses w' o') /\ dict_get n (attrs o') = Some v /\
    (forall m, m <> n -> dict_get m (attrs o') = dict_get m (attrs o)) /\
    (forall (s : ps K) x, v = MNum x -> compute_name s (attrs o') n = Ok x) /\
    (forall j p, j <> i -> nth_error (objs (run l world0)) j = Some p -> nth_error (objs w') j = Some p /\ internal_masses w' p = internal_masses (run l world0) p).
Proof.
  intros K l i o n v F M N. destruct (assign_ok (run l world0) i o n v (fair_tidy l world0 tidy0 F) N M) as (w' & E & _ & N' & I & _ & O).
  exists w', (mkObj (masses o) (dict_set n v (attrs o))). split; [exact E|]. split; [exact N'|]. split; [apply I; left; reflexivity|].
  assert (G : dict_get n (dict_set n v (attrs o)) = Some v) by (rewrite dict_get_set; destruct (str_eqb_spec n n); [reflexivity|congruence]).
  split; [exact G|]. split.
  - intros m D. cbn [attrs]. rewrite dict_get_set. destruct (str_eqb_spec m n); [contradiction|reflexivity].
  - split; [|exact O]. intros s x ->. exact (number_compute s _ n x M G).
Qed.
Print Assumptions C48_assign_partial.
Theorem C48_construct_partial :
  forall (K : Fld) (l : list (op K)) (d : dict (mval K)) rnd, fair_run l world0 -> Forall (fun kv => mass_name (fst kv)) d -> NoDup (map fst d) ->
  exists w' o, construct (ADict d) rnd (run l world0) = (w', Ok tt) /\ nth_error (objs w') (length (objs (run l world0))) = Some o /\
    (forall n, dict_get n (attrs o) = dict_get n d) /\ (forall n, In n (internal_masses w' o) <-> In n (map fst d)) /\
    (forall (s : ps K) n x, In n (map fst d) -> dict_get n d = Some (MNum x) -> compute_name s (attrs o) n = Ok x) /\
    (forall j p, nth_error (objs (run l world0)) j = Some p -> nth_error (objs w') j = Some p /\ internal_masses w' p = internal_masses (run l world0) p).
Proof.
  intros K l d rnd F M ND. destruct (new_dict (run l world0) d rnd (fair_tidy l world0 tidy0 F) M) as (w' & E & T & N & O).
  eexists w', _. split; [exact E|]. split; [exact N|].
  assert (G : forall n, dict_get n (dict_update [] d) = dict_get n d) by (intros n; rewrite (dict_update_val d [] n ND); destruct (dict_get n d); reflexivity).
  split; [exact G|]. split.
  - intros n. destruct (proj1 T _ _ N) as (k & Ek & _ & B). unfold internal_masses. rewrite Ek. cbn [elements]. rewrite B. cbn [attrs]. rewrite G. apply dict_get_In.
  - split; [|exact O]. intros s n x I Gx. apply number_compute; [|cbn [attrs]; rewrite G; exact Gx]. apply in_map_iff in I as (kv & <- & I). exact (proj1 (Forall_forall _ _) M kv I).
Qed.
Print Assumptions C48_construct_partial.
Theorem C48_set_partial :
  forall (K : Fld) (l : list (op K)) k rnd, fair_run l world0 -> (k < length (sets (run l world0)))%nat -> ~ held (run l world0) k ->
  Forall mass_name (nth k (sets (run l world0)) []) ->
  exists w' o, construct (ANames (CSet k)) rnd (run l world0) = (w', Ok tt) /\ nth_error (objs w') (length (objs (run l world0))) = Some o /\
    (forall n, In n (internal_masses w' o) <-> In n (nth k (sets (run l world0)) [])) /\
    (forall (s : ps K) n, In n (internal_masses w' o) -> exists x, compute_name s (attrs o) n = Ok x).
Proof.
  intros K l k rnd F L H M. destruct (new_set (run l world0) k rnd (fair_tidy l world0 tidy0 F) L H M) as (w' & E & T & N & O).
  eexists w', _. split; [exact E|]. split; [exact N|]. destruct (proj1 T _ _ N) as (k' & Ek & _ & B). cbn [masses] in Ek. injection Ek as <-.
  assert (I : forall n, In n (nth k (sets w') []) <-> In n (nth k (sets (run l world0)) [])).
  { intros n. rewrite B. cbn [attrs]. rewrite dict_update_get, map_map. cbn [fst]. rewrite map_id. cbn. intuition. }
  split; [exact I|]. intros s n Hn. unfold internal_masses in Hn. cbn [masses elements attrs] in *.
  assert (Q : forall ns (A : dict (mval K)), (forall m v, dict_get m A = Some v -> exists x, v = MNum x) -> forall m v, dict_get m (dict_update A (map (fun n => (n, MNum (rnd n))) ns)) = Some v -> exists x, v = MNum x).
  { induction ns as [|y ns IH]; intros A HA m v Gm; [exact (HA m v Gm)|]. apply (IH (dict_set y (MNum (rnd y)) A)) with (m := m); [|exact Gm].
    intros m' v' G'. rewrite dict_get_set in G'. destruct (str_eqb m' y); [injection G' as <-; eauto|exact (HA m' v' G')]. }
  destruct (dict_get n (dict_update [] (map (fun n => (n, MNum (rnd n))) (nth k (sets (run l world0)) [])))) as [v|] eqn:Gv.
  - destruct (Q _ [] ltac:(intros ? ? Z; discriminate Z) n v Gv) as (x & ->). exists x. apply number_compute; [|exact Gv]. exact (proj1 (Forall_forall _ _) M n (proj1 (I n) Hn)).
  - exfalso. exact (proj1 (B n) Hn Gv).
Qed.
Print Assumptions C48_set_partial.
Definition prog48 : list (op GF13) :=
  [OSet [m_t; lit "M_W"]; ONew (ANames (CSet 0)) (fun _ => g13 3); ONew (ADict [(m_t, MNum (g13 2))]) (fun _ => 0); OAssign 1 (lit "m") (MNum (g13 7)); OAssign 0 m_t (MStr (lit "s_12"))].
Example C48_ex : fair_run prog48 world0 /\ length (objs (run prog48 world0)) = 2%nat /\
  (exists o, nth_error (objs (run prog48 world0)) 1 = Some o /\ internal_masses (run prog48 world0) o = [m_t; lit "m"]) /\ mass_name m_t /\ mass_name (lit "M_W").
Proof.
  assert (M : mass_name m_t /\ mass_name (lit "M_W") /\ mass_name (lit "m")) by (repeat split).
  destruct M as (M1 & M2 & M3). split; [|split; [reflexivity|split; [eexists; split; reflexivity|split; assumption]]].
  cbn [prog48 fair_run fair]. split; [exact I|]. split; [|split; [|split; [exact M3|split; [exact M1|exact I]]]].
  - split; [cbn; lia|]. split; [intros (o & [] & _)|]. cbn. repeat apply Forall_cons; [exact M1|exact M2|constructor].
  - apply Forall_cons; [exact M1|constructor].
Qed.
(* two points made from one set: an assignment to one makes the masses of the other
   unreadable (internal_masses_dict, hence copy, raises) *)
Theorem C48_shared_set_refuted :
  exists (l : list (op GF13)) o, nth_error (objs (run l world0)) 0 = Some o /\ In (lit "m_H") (internal_masses (run l world0) o) /\
    (forall s : ps GF13, compute_name s (attrs o) (lit "m_H") = Err AttributeError) /\ internal_masses_dict (run l world0) o = Err AttributeError.
Proof.
  exists [OSet [m_t]; ONew (ANames (CSet 0)) (fun _ => 1); ONew (ANames (CSet 0)) (fun _ => 1); OAssign 1 (lit "m_H") (MNum 1)].
  eexists. split; [reflexivity|]. split; [right; left; reflexivity|]. split; [intros s|]; reflexivity.
Qed.
Print Assumptions C48_shared_set_refuted.
(* a list or a tuple of names makes the constructor raise *)
Theorem C48_list_refuted :
  forall (K : Fld) (n : pystr) (ns : list pystr) rnd (w : world K), is_mass n = true ->
  snd (construct (ANames (CList (n :: ns))) rnd w) = Err AttributeError /\ snd (construct (ANames (CTuple (n :: ns))) rnd w) = Err AttributeError.
Proof. intros K n ns rnd w M. unfold construct. cbn [elements map setattrs]. unfold setattr. rewrite M. split; reflexivity. Qed.
Print Assumptions C48_list_refuted.
(* the other names that compute knows: m1, M1, m_1, M_1 are p² of leg 1 whatever the point's masses are *)
Theorem C48_legs : forall (K : Fld) (s : ps K) (A : dict (mval K)) d p (us upper : bool), (1 <= d <= 9)%Z -> getitem s d = Ok p -> consistent p ->
  compute_name s A ((if upper then 77 else 109) :: (if us then [95] else []) ++ dec d)%Z = Ok (lsq p).
Proof.
  intros K s A d p us upper D G C. unfold compute_name. rewrite dec_digit by lia.
  assert (M : match_mi ((if upper then 77 else 109) :: (if us then [95] else []) ++ [48 + d])%Z = Some d).
  { assert (d = 1 \/ d = 2 \/ d = 3 \/ d = 4 \/ d = 5 \/ d = 6 \/ d = 7 \/ d = 8 \/ d = 9)%Z as H by lia. destruct upper, us; repeat (destruct H as [-> |H]; [reflexivity|]); subst; reflexivity. }
  assert (E : c_S s [d] = Ok (lsq p)).
  { unfold c_S, mom_sum. cbn [rmapM]. unfold mom. rewrite G. cbn [rmap rbind rmapM msum fold_right]. rewrite madd_0_r, det2_mdet. f_equal. symmetry. apply (mass_spec p C). }
  destruct (length A); cbn [compute_name_fuel]; rewrite M; exact E.
Qed.
Print Assumptions C48_legs.
Example C48_legs_ex : getitem [ex_massive] 1 = Ok ex_massive /\ consistent ex_massive /\ lsq ex_massive <> 0 /\ compute_name [ex_massive] [(lit "m_1", MNum (g13 5))] (lit "m_1") = Ok (lsq ex_massive).
Proof.
  assert (C : consistent ex_massive) by apply C07_ex. split; [reflexivity|]. split; [exact C|]. split; [fneq|]. apply (C48_legs GF13 [ex_massive] _ 1 ex_massive true false); [lia|reflexivity|exact C].
Qed.
(* a mass called m_1 is not what compute("m_1") returns *)
Theorem C48_leg_name_refuted :
  exists (s : ps GF13) (A : dict (mval GF13)) x, dict_get (lit "m_1") A = Some (MNum x) /\ is_mass (lit "m_1") = true /\ compute_name s A (lit "m_1") <> Ok x.
Proof.
  exists ex6, [(lit "m_1", MNum (g13 5))], (g13 5). split; [reflexivity|]. split; [reflexivity|].
  apply (bool_neq (fun r => match r with Ok y => feqb y (g13 5) | Err _ => false end)). vm_compute. reflexivity.
Qed.
Print Assumptions C48_leg_name_refuted.
(* a rejected assignment to a property still enters its name in the set *)
Theorem C48_property_refuted :
  exists (w w' : world GF13) o, nth_error (objs w) 0 = Some o /\ assign 0 (lit "ms") (MNum 1) w = (w', Err AttributeError) /\
    internal_masses_dict w o = Ok [] /\ internal_masses_dict w' o = Err AttributeError.
Proof. exists (run [ONew ANone (fun _ => 0)] world0). eexists _, _. split; [reflexivity|]. split; [reflexivity|]. split; reflexivity. Qed.
Print Assumptions C48_property_refuted.
