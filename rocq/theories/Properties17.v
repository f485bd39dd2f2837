(* C60-C62: points with symbols for components, ideals, and points on varieties. *)
From Coq Require Import Ascii String.
From Coq Require Import List ZArith Bool Lia QArith Qcanon.
From Verif Require Import Base Fld Particle ParticleSpec ParticleThm Index IndexThm Phase PhaseThm Compute ComputeSpec ComputeThm ComputeThm4 ComputeThm5 ToFieldThm Str Gen Ideal RatPoly RatFun Analytic AnalyticSpec AnalyticThm AnalyticThm2 AnalyticThm3 AnalyticThm4 FldInst Properties03.
Import ListNotations.
Import Compute.
Close Scope Qc_scope. Close Scope Q_scope.
Open Scope nat_scope.

(* a point that has the first leg in common with ex5 *)
Definition ex17 : ps GF13 := from_spinors
  [(V2 (g13 6) (g13 11), V2 (g13 1) (g13 11)); (V2 (g13 2) (g13 1), V2 (g13 1) (g13 5)); (V2 (g13 3) (g13 5), V2 (g13 7) (g13 11));
   (V2 (g13 12) (g13 9), V2 (g13 10) (g13 2)); (V2 (g13 1) (g13 10), V2 (g13 4) (g13 10))].
Definition mask17 : list bool := [true; true; true; true] ++ repeat false 16.
Lemma rep_spinors {K : Fld} (t : ps K) : Forall reproduces t -> Forall has_spinors t.
Proof. intros R. eapply Forall_impl; [|exact R]. intros p (r & l & A & B & _). split; congruence. Qed.

(* C60: make_analytical_d works exactly for legs that have spinors and lists that are long
   enough, and its result is consistent like every other point *)
Theorem C60_exists : forall (K : Fld) (s : ps K) (indep : option (list bool)), s <> [] ->
  (exists S, make_analytical_d indep s = Ok S) <->
  (Forall has_spinors s /\ forall l, indep = Some l -> 4 * length s <= length l).
Proof.
  intros K s indep Ne. split.
  - intros (S & E). destruct (make_spinors s indep S E) as [A B]. split; [exact A|]. intros l ->. exact (B Ne).
  - intros [A B]. apply make_ok; [exact A|]. destruct indep as [l|]; cbn [mask_of]; [exact (B l eq_refl)|rewrite repeat_length; lia].
Qed.
Print Assumptions C60_exists.
Theorem C60_consistent : forall (K : Fld) (s : ps K) (indep : option (list bool)) S, make_analytical_d indep s = Ok S ->
  length S = length s /\ Forall reproduces S /\ sound S.
Proof. exact (fun K s indep S => make_built s indep S). Qed.
Print Assumptions C60_consistent.
Example C60_exists_ex : ex5 <> [] /\ Forall has_spinors ex5 /\ 4 * length ex5 <= length mask17.
Proof. split; [discriminate|]. split; [exact (rep_spinors _ ex5_reproduces)|]. vm_compute. repeat constructor. Qed.

(* C60: inserting values for the symbols is a well-defined operation: it keeps sums,
   differences, products and halves, has at most one result, leaves numbers alone and gives
   each symbol its value *)
Theorem C60_substitution : forall (K0 K : Fld) (R0 : K0 -> K -> Prop), ring_rel K0 K R0 -> functional R0 -> forall (v : nat -> K) (m : nat),
  ring_rel (tower K0 m) K (subst R0 v m) /\ functional (subst R0 v m) /\
  (forall x y, R0 x y -> subst R0 v m (tconst m x) y) /\ (forall j, j < m -> subst R0 v m (sym m j) (v j)).
Proof.
  intros K0 K R0 RR Fu v m. split; [exact (subst_ring R0 RR v m)|]. split; [exact (subst_fun R0 RR v m Fu)|].
  split; [exact (subst_const R0 RR v m)|exact (subst_sym R0 RR v m)].
Qed.
Print Assumptions C60_substitution.

(* C60: any invariant or covariant of the point with symbols becomes, if the values of
   analytical_subs_d of a point t are inserted for the symbols, that of t, and it raises the
   same exception if it raises.  Numbers that were kept have to agree with those of t. *)
Theorem C60_values : forall (K0 K : Fld) (R0 : K0 -> K -> Prop) (s : ps K0) (indep : option (list bool)) S (t : ps K) (d : dict K),
  ring_rel K0 K R0 -> make_analytical_d indep s = Ok S -> length t = length s -> Forall reproduces t -> analytical_subs_d t = Ok d ->
  (forall j x y, kept indep j -> nth_error (components s) j = Some x -> nth_error (components t) j = Some y -> R0 x y) ->
  forall e, rrel (vrel (subst R0 (given d) (4 * length s))) (compute S e) (compute t e).
Proof.
  intros K0 K R0 s indep S t d RR E L R D Ke e. apply rel_compute; [apply subst_ring, RR|]. exact (make_prel R0 RR s indep S t d E L R D Ke).
Qed.
Print Assumptions C60_values.
Example C60_values_ex : ring_rel GF13 GF13 eq /\ functional (@eq GF13) /\ (exists S, make_analytical_d (Some mask17) ex5 = Ok S) /\ length ex17 = length ex5 /\
  Forall reproduces ex17 /\ (exists d, analytical_subs_d ex17 = Ok d) /\
  (forall j x y, kept (Some mask17) j -> nth_error (components ex5) j = Some x -> nth_error (components ex17) j = Some y -> x = y) /\
  exists x, c_A2 ex17 1 2 = Ok x /\ x <> (0 : GF13)%fld.
Proof.
  split; [apply eq_ring|]. split; [apply eq_fun|]. split; [apply make_ok; [exact (rep_spinors _ ex5_reproduces)|vm_compute; repeat constructor]|].
  split; [reflexivity|]. split; [apply from_spinors_reproduces|]. split; [apply subs_exists, rep_spinors, from_spinors_reproduces|]. split.
  - intros j x y (l & E & H) A B. injection E as <-. assert (J : j < 4). { destruct (Nat.lt_ge_cases j 4); [assumption|]. exfalso. unfold mask17 in H. rewrite nth_error_app2 in H by assumption. apply nth_error_In, repeat_spec in H. discriminate H. }
    enough (X : Some x = Some y) by (injection X as ->; reflexivity). rewrite <- A, <- B. destruct j as [|[|[|[|j]]]]; [reflexivity..|lia].
  - exists (get_ok (0 : GF13)%fld (c_A2 ex17 1 2)). split; [fok|fneq].
Qed.
(* C60: in particular, an identity between invariants that holds for the symbols holds at
   every massless point of every field the numbers can be mapped to *)
Theorem C60_identity : forall (K0 K : Fld) (R0 : K0 -> K -> Prop) (s : ps K0) S (t : ps K) e e', ring_rel K0 K R0 -> functional R0 ->
  make_analytical_d None s = Ok S -> length t = length s -> Forall reproduces t -> compute S e = compute S e' -> compute t e = compute t e'.
Proof. exact (fun K0 K R0 s S t e e' RR Fu => identity_values R0 RR Fu s S t e e'). Qed.
Print Assumptions C60_identity.
Lemma zf_QF n : (zf n : QF) = Q2Qc (n # 1)%Q.
Proof.
  assert (S1 : forall n, (zf n : QF) = Q2Qc (n # 1)%Q -> (zf (n + 1) : QF) = Q2Qc ((n + 1) # 1)%Q /\ (zf (n - 1) : QF) = Q2Qc ((n - 1) # 1)%Q).
  { clear. intros n H. rewrite zf_add, zf_sub, H. change (zf 1 : QF) with (Q2Qc (1 # 1)%Q). split.
    - change (Qcplus (Q2Qc (n # 1)%Q) (Q2Qc (1 # 1)%Q) = Q2Qc ((n + 1) # 1)%Q). apply Qc_is_canon. cbn [this Q2Qc Qcplus]. rewrite !Qred_correct. unfold Qeq, Qplus. cbn. lia.
    - change (Qcminus (Q2Qc (n # 1)%Q) (Q2Qc (1 # 1)%Q) = Q2Qc ((n - 1) # 1)%Q). apply Qc_is_canon. unfold Qcminus. cbn [this Q2Qc Qcplus Qcopp]. rewrite !Qred_correct. unfold Qeq, Qplus, Qopp. cbn. lia. }
  induction n using Z.peano_ind; [reflexivity|apply (S1 n IHn)|apply (S1 n IHn)].
Qed.
(* the numbers are rational or from another field, those of t from any field of the same or of
   positive characteristic *)
Example C60_identity_ex : ring_rel QF GF13 (frac_rel QF GF13) /\ functional (frac_rel QF GF13).
Proof.
  split; [apply frac_rel_ring|]. intros x y y' A B. refine (frac_rel_fun QF GF13 _ x y y' A B). 
  intros n H. rewrite zf_QF in H. change (Q2Qc (n # 1)%Q = Q2Qc (0 # 1)%Q) in H. apply Q2Qc_eq_iff in H. unfold Qeq in H. cbn in H. replace n with 0%Z by lia. reflexivity.
Qed.

(* C61: the generators of LipsIdeal all vanish at a massless point exactly if all covariants
   do and, unless momentum_conservation is False, the total momentum does. *)
Theorem C61_variety : forall (K0 K : Fld) (R0 : K0 -> K -> Prop) (s : ps K0) (covariants : list inv) (mc : bool) gs (t : ps K) (d : dict K),
  ring_rel K0 K R0 -> functional R0 -> lips_generators s covariants mc = Ok gs -> length t = length s -> Forall reproduces t -> analytical_subs_d t = Ok d ->
  ((forall g, In g gs -> subst R0 (given d) (4 * length s) g 0%fld) <-> Forall (vanishes t) covariants /\ (mc = true -> total_mom t = mzero)).
Proof. exact (fun K0 K R0 s covs mc gs t d RR Fu => gens_values R0 RR Fu s covs mc gs t d). Qed.
Print Assumptions C61_variety.
(* C61: the generators exist if no entry of a covariant is a constant *)
Theorem C61_exists : forall (K : Fld) (s : ps K) (covariants : list inv) (mc : bool), s <> [] -> Forall has_spinors s ->
  Forall (varies K (length s)) covariants -> exists gs, lips_generators s covariants mc = Ok gs.
Proof. exact (fun K s covs mc => gens_exist s covs mc). Qed.
Print Assumptions C61_exists.
(* entries of values at two points that differ *)
Fixpoint all_differ (l l' : list GF13) : bool := match l, l' with [], [] => true | x :: l, y :: l' => negb (feqb x y) && all_differ l l' | _, _ => false end.
Lemma varies_by (t t' : ps GF13) (e : inv) n : length t = n -> length t' = n -> Forall reproduces t -> Forall reproduces t' ->
  match compute t e, compute t' e with Ok v, Ok v' => all_differ (coords v) (coords v') | _, _ => false end = true -> varies GF13 n e.
Proof.
  intros L L' R R' H. destruct (compute t e) as [v|] eqn:E; [|discriminate H]. destruct (compute t' e) as [v'|] eqn:E'; [|discriminate H].
  exists t, v. split; [split; assumption|]. split; [exact E|]. intros k x Hk.
  assert (G : forall l l' k x, all_differ l l' = true -> nth_error l k = Some x -> exists x', nth_error l' k = Some x' /\ x <> x').
  { clear. induction l as [|a l IH]; intros [|b l'] [|k] x H N; cbn [all_differ nth_error] in *; try discriminate.
    - injection N as <-. apply andb_true_iff in H. destruct H as [H _]. exists b. split; [reflexivity|]. intros ->. rewrite (feqb_refl (K := GF13)) in H. discriminate H.
    - apply andb_true_iff in H. destruct H as [_ H]. apply (IH l' k x H N). }
  destruct (G _ _ _ _ H Hk) as (x' & N & D). exists t', v', x'. split; [split; assumption|]. auto.
Qed.
(* five legs: a bracket, an open
   string and a matrix *)
Definition covs17 : list inv := [IA2 1 2; IOpenEnd OAng 1 [eplus (leg 2) (leg 3)]; IDouble [leg 1; leg 2]]%Z.
Lemma in_varies17 : Forall (varies GF13 5) covs17.
Proof.
  repeat (apply Forall_cons; [apply (varies_by ex5 ex17); [reflexivity|reflexivity|apply ex5_reproduces|apply from_spinors_reproduces|vm_compute; reflexivity]|]). apply Forall_nil.
Qed.
Example C61_ex : ex5 <> [] /\ Forall has_spinors ex5 /\ Forall (varies GF13 (length ex5)) covs17 /\ (exists gs, lips_generators ex5 covs17 true = Ok gs) /\
  (exists d, analytical_subs_d ex5 = Ok d) /\ total_mom ex5 = mzero.
Proof.
  assert (Ne : ex5 <> []) by discriminate. assert (Hs := rep_spinors _ ex5_reproduces). 
  split; [exact Ne|]. split; [exact Hs|]. split; [exact in_varies17|]. split; [exact (gens_exist ex5 covs17 true Ne Hs in_varies17)|]. split; [exact (subs_exists _ Hs)|exact ex5_total].
Qed.
(* C61: a covariant that is zero for all values of the symbols, like <1|1>, defines the ideal
   zero, but LipsIdeal raises for it *)
Theorem C61_constant_refuted : exists e : inv,
  (forall (K : Fld) (t : ps K), t <> [] -> Forall reproduces t -> sound t -> vanishes t e) /\
  forall (K : Fld) (s : ps K) (mc : bool), s <> [] -> Forall has_spinors s -> lips_generators s [e] mc = Err OtherException.
Proof.
  exists (IA2 1 1). split; [|exact (fun K s mc => gens_constant s mc)].
  intros K t Ne R So. destruct t as [|p t]; [contradiction|]. inversion R as [|? ? Rp _]. subst. destruct Rp as (r & l & Er & _).
  exists (VS 0%fld). split; [|reflexivity]. cbn [compute]. assert (G : getitem (p :: t) 1 = Ok p) by (apply (get_nth (p :: t) 0); reflexivity). rewrite (A2_make _ 1 1 p p r r So G G Er Er). cbn [rmap]. rewrite self_dot. reflexivity.
Qed.
Print Assumptions C61_constant_refuted.

(* C62: update_particles puts a complete dictionary into a point: afterwards the components are
   those of the dictionary and every leg is consistent; only the spin indices are kept *)
Theorem C62_update : forall (K : Fld) (d : dict K) (t : ps K), complete (4 * length t) d ->
  exists t', update_particles d t = (t', Ok tt) /\ length t' = length t /\ Forall reproduces t' /\ sound t' /\ map (fun p => spin p) t' = map (fun p => spin p) t /\
  exists d', analytical_subs_d t' = Ok d' /\ forall j, j < 4 * length t -> dict_get (name j) d' = dict_get (name j) d.
Proof.
  intros K d t C. destruct (update_all d t C) as (t' & E & _). exists t'. split; [exact E|]. destruct (update_props d t t' C E) as (A & B & L & Sp). split; [exact L|]. split; [exact A|]. split; [exact B|]. split; [exact Sp|]. exact (update_subs d t t' C E).
Qed.
Print Assumptions C62_update.
(* C62: the result does not depend on the momenta the point had *)
Theorem C62_forgets : forall (K : Fld) (d : dict K) (t u : ps K), complete (4 * length t) d -> map (fun p => spin p) t = map (fun p => spin p) u ->
  fst (update_particles d t) = fst (update_particles d u).
Proof. exact (fun K d t u => update_forgets d t u). Qed.
Print Assumptions C62_forgets.
(* C62: a name that is missing is a KeyError *)
Theorem C62_missing : forall (K : Fld) (d : dict K) (t : ps K) j, j < 4 * length t -> dict_get (name j) d = None -> snd (update_particles d t) = Err KeyError.
Proof.
  intros K d t j J E. unfold update_particles, bind, get, upto. apply (update_missing d (length t) 0 t eq_refl). destruct (split4 _ _ J) as (k & c & Hk & Hc & ->). exists k. split; [lia|]. exists c. auto.
Qed.
Print Assumptions C62_missing.
(* C62: it is the inverse of analytical_subs_d *)
Theorem C62_roundtrip : forall (K : Fld) (t : ps K) (d : dict K), Forall reproduces t -> sound t -> analytical_subs_d t = Ok d -> update_particles d t = (t, Ok tt).
Proof. exact (fun K t d => update_same d t). Qed.
Print Assumptions C62_roundtrip.
Example C62_ex : Forall reproduces ex17 /\ sound ex17 /\ exists d, analytical_subs_d ex17 = Ok d /\ complete (4 * length ex17) d /\ complete (4 * length ex5) d.
Proof.
  split; [apply from_spinors_reproduces|]. split; [apply from_spinors_sound|]. destruct (subs_exists ex17) as (d & D); [apply rep_spinors, from_spinors_reproduces|]. exists d. split; [exact D|]. split; exact (subs_complete _ _ D).
Qed.
(* C62: _singular_variety reaches a point where the covariants and the total momentum vanish
   if and only if the dictionary of the solver annihilates the generators of the ideal;
   whatever point it starts from *)
Theorem C62_singular_variety : forall (K0 K : Fld) (R0 : K0 -> K -> Prop) (s : ps K0) (covariants : list inv) gs (solve : dict K -> result (dict K)) (t : ps K) base d,
  ring_rel K0 K R0 -> functional R0 -> lips_generators s covariants true = Ok gs -> length t = length s ->
  analytical_subs_d t = Ok base -> solve base = Ok d -> complete (4 * length t) d ->
  exists t', singular_variety solve t = (t', Ok tt) /\ length t' = length t /\ Forall reproduces t' /\ sound t' /\
  ((forall g, In g gs -> subst R0 (given d) (4 * length s) g 0%fld) <-> Forall (vanishes t') covariants /\ total_mom t' = mzero).
Proof.
  intros K0 K R0 s covs gs solve t base d RR Fu E L B Sd C. destruct (update_all d t C) as (t' & U & _). exists t'. split.
  - unfold singular_variety, bind, get, lift. rewrite B, Sd. exact U.
  - destruct (update_props d t t' C U) as (A & So & L' & _). split; [exact L'|]. split; [exact A|]. split; [exact So|].
    rewrite (update_values R0 RR Fu s covs true gs t t' d E L C U). intuition.
Qed.
Print Assumptions C62_singular_variety.
(* a momentum conserving point with <1|2> = 0, as a solver may return it *)
Definition sol17 : ps GF13 := from_spinors
  [(V2 (g13 1) (g13 0), V2 (g13 1) (g13 5)); (V2 (g13 1) (g13 0), V2 (g13 8) (g13 5)); (V2 (g13 0) (g13 1), V2 (g13 6) (g13 9));
   (V2 (g13 1) (g13 1), V2 (g13 1) (g13 2)); (V2 (g13 1) (g13 2), V2 (g13 3) (g13 1))].
Example C62_singular_variety_ex : exists gs base d, lips_generators ex5 [IA2 1 2] true = Ok gs /\ analytical_subs_d ex5 = Ok base /\
  analytical_subs_d sol17 = Ok d /\ complete (4 * length ex5) d /\ (exists x, c_A2 ex5 1 2 = Ok x /\ x <> (0 : GF13)%fld) /\
  vanishes sol17 (IA2 1 2) /\ total_mom sol17 = mzero /\ (exists x, c_S2 sol17 1 2 = Ok x /\ x <> (0 : GF13)%fld).
Proof.
  assert (Hs := rep_spinors _ ex5_reproduces). destruct (subs_exists ex5 Hs) as (base & B). destruct (subs_exists sol17) as (d & D); [apply rep_spinors, from_spinors_reproduces|].
  destruct (gens_exist ex5 [IA2 1 2] true) as (gs & G); [discriminate|exact Hs|constructor; [exact (Forall_inv in_varies17)|constructor]|].
  exists gs, base, d. split; [exact G|]. split; [exact B|]. split; [exact D|]. split; [exact (subs_complete _ _ D)|].
  split; [exists (get_ok (0 : GF13)%fld (c_A2 ex5 1 2)); split; [fok|fneq]|].
  split; [|split; [fcomp|exists (get_ok (0 : GF13)%fld (c_S2 sol17 1 2)); split; [fok|fneq]]].
  exists (VS (0 : GF13)%fld). split; [|reflexivity]. cbn [compute]. assert (X : c_A2 sol17 1 2 = Ok (0 : GF13)%fld) by fokeq. rewrite X. reflexivity.
Qed.
(* C62: from_singular_variety likewise, from the solution alone *)
Theorem C62_from_singular_variety : forall (K0 K : Fld) (R0 : K0 -> K -> Prop) (s : ps K0) (covariants : list inv) gs (solve : dict K -> result (dict K)) (dummy : ps K) d,
  ring_rel K0 K R0 -> functional R0 -> lips_generators s covariants true = Ok gs -> length dummy = length s -> solve [] = Ok d -> complete (4 * length dummy) d ->
  exists t', from_singular_variety dummy solve = Ok t' /\ length t' = length dummy /\ Forall reproduces t' /\ sound t' /\
  ((forall g, In g gs -> subst R0 (given d) (4 * length s) g 0%fld) <-> Forall (vanishes t') covariants /\ total_mom t' = mzero).
Proof.
  intros K0 K R0 s covs gs solve t d RR Fu E L Sd C. destruct (update_all d t C) as (t' & U & _). exists t'. split.
  - unfold from_singular_variety, bind, lift. rewrite Sd, U. reflexivity.
  - destruct (update_props d t t' C U) as (A & So & L' & _). split; [exact L'|]. split; [exact A|]. split; [exact So|].
    rewrite (update_values R0 RR Fu s covs true gs t t' d E L C U). intuition.
Qed.
Print Assumptions C62_from_singular_variety.
