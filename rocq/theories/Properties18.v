(* C63, C64: the four brackets that the generation leaves out. *)
From Coq Require Import Ascii String.
From Coq Require Import List ZArith Bool Lia Sorted Permutation.
From Verif Require Import Base Fld FldInst Particle ParticleSpec Index Phase PhaseSpec Compute ComputeSpec ComputeThm4 Str Gen GenSpec GenThm GenThm2 GenThm3 Cache CacheSpec CacheThm Parse Text TextSpec TextThm4 TextThm5 TextThm6 FourSpec FourThm Properties11 Properties12.
Import Compute.
Import ListNotations.
Open Scope Z_scope.

Definition render_inv (b : brk) : inv :=
  IChain (if b_ang b then OAng else OSq) (b_i b) (map sum_entry (b_mid b)) (b_j b) (if Bool.eqb (Nat.even (length (b_mid b))) (b_ang b) then CAng else CSq).
Lemma shows_render b : parts_ok (b_mid b) -> 0 <= b_i b -> 0 <= b_j b -> shows (render_inv b) (render b).
Proof.
  intros P I J. apply join_bars in P. unfold render, render_inv.
  replace (if b_ang b then [LANG] else [LSQ]) with (opening (if b_ang b then OAng else OSq)) by (destruct (b_ang b); reflexivity).
  replace (if Bool.eqb (Nat.even (length (b_mid b))) (b_ang b) then [RANG] else [RSQ]) with (closing (if Bool.eqb (Nat.even (length (b_mid b))) (b_ang b) then CAng else CSq)) by (destruct (Bool.eqb _ _); reflexivity).
  apply w_chain; [exact I|exact J|exact P].
Qed.
(* C63: a generated four bracket, as a string, is computed to the value that the statements
   below are about *)
Theorem C63_value : forall (K : Fld) (s : ps K) A f n r b, gen_N n 4 = Ok r -> In b r ->
  compute_text (S f) s A (render b) = rmap (fun x => AVal (VS x)) (four_of s b).
Proof.
  intros K s A f n r b R H. rewrite gen_4_raw in R. injection R as <-. apply raw4_In, good4_legs in H as (I & J & M & Ha & Hd & LI & LJ & _ & _ & EI & EJ & _).
  assert (P : parts_ok (b_mid b)).
  { rewrite M. split; [discriminate|]. assert (Q : forall l, legset n l -> Forall (fun k => 0 <= k) l) by (intros l [_ F]; eapply Forall_impl; [|exact F]; cbn; intros; lia). repeat constructor; auto. }
  rewrite (compute_shows s A f (render_inv b) (render b) (render b)); [|apply shows_render; [exact P|lia|lia]|apply in_bold_refl].
  unfold render_inv, four_of, four. rewrite M. cbn [map nth length Nat.even].
  assert (E : compute s (IChain (if b_ang b then OAng else OSq) (b_i b) [sum_entry I; sum_entry J] (b_j b) (if Bool.eqb true (b_ang b) then CAng else CSq)) =
    rmap VS (c_chain s (if b_ang b then OAng else OSq) (b_i b) [sum_of I; sum_of J] (b_j b) (if b_ang b then CAng else CSq))) by (destruct (b_ang b); reflexivity).
  rewrite E. destruct (c_chain _ _ _ _ _ _); reflexivity.
Qed.
Print Assumptions C63_value.
(* C63: if the two parts, possibly replaced by the other legs, are equal, or differ by one leg
   and the ends are the same, or differ by the leg at the other end, then the four bracket is a
   product, the same one for all fields and points. *)
Theorem C63_products : forall n ang a I J d, 1 <= a <= n -> 1 <= d <= n -> legset n I -> legset n J -> ~ In a I -> ~ In d J -> I <> [] -> J <> [] ->
  reducible n a I J d -> is_product n ang a I J d.
Proof. exact reducible_product. Qed.
Print Assumptions C63_products.
Lemma legset_by n l : (forall x, In x l -> 1 <= x <= n) -> StronglySorted Z.lt l -> legset n l.
Proof. intros H S. split; [exact S|apply Forall_forall, H]. Qed.
Ltac sorted_ := repeat (constructor; try lia).
Ltac labels_ := let x := fresh in let X := fresh in intros x X; cbn [In] in X; repeat destruct X as [<-|X]; try lia; try contradiction.
Ltac legset_ := apply legset_by; [labels_|sorted_].
(* ⟨1|(3+4)|(2+5)|6⟩ = -⟨1|(3+4)|(1+3+4)|6⟩ *)
Example C63_products_ex : legset 6 [3; 4] /\ legset 6 [2; 5] /\ reducible 6 1 [3; 4] [2; 5] 6.
Proof.
  split; [legset_|]. split; [legset_|]. exists [3; 4], [1; 3; 4]. split; [left; reflexivity|]. split.
  { right. split; [legset_|]. intros x X. cbn [In]. lia. }
  split; [discriminate|]. split; [discriminate|]. right; right; right. split; [cbn [In]; lia|]. intros x. cbn [In]. lia.
Qed.
(* C63: which of the generated brackets are left out *)
Theorem C63_left_out : forall n r b, gen_N n 4 = Ok r -> In b r ->
  ~ In b (drop_products n r) <-> taken_for_product n (b_i b) (nth 0 (b_mid b) []) (nth 1 (b_mid b) []) (b_j b).
Proof. exact left_out_iff. Qed.
Print Assumptions C63_left_out.
(* all products of C63_products are left out *)
Theorem C63_all_left_out : forall n r b, gen_N n 4 = Ok r -> In b r -> reducible n (b_i b) (nth 0 (b_mid b) []) (nth 1 (b_mid b) []) (b_j b) ->
  ~ In b (drop_products n r).
Proof. exact left_out. Qed.
Print Assumptions C63_all_left_out.
Definition brk6 : brk := Brk true 1 [[3; 4]; [2; 5]] 6.
Example C63_left_out_ex : gen_N 6 4 = Ok (raw4 6) /\ In brk6 (raw4 6) /\ reducible 6 1 [3; 4] [2; 5] 6.
Proof. split; [apply gen_4_raw|]. split; [apply memb_In; vm_compute; reflexivity|]. apply C63_products_ex. Qed.

(* false: a bracket that is left out need not be a product.  Five legs: ⟨1|(2+5)|(1+3)|2⟩ is zero at
   [s5] while nothing that Invariants lists is, and it is no product of two shorter invariants. *)
Definition brk5 : brk := Brk true 1 [[2; 5]; [1; 3]] 2.
Definition sp13 (l : list (Z * Z * (Z * Z))) : ps GF13 := from_spinors (map (fun x => (V2 (g13 (fst (fst x))) (g13 (snd (fst x))), V2 (g13 (fst (snd x))) (g13 (snd (snd x))))) l).
Definition s5 : ps GF13 := sp13 [((9, 12), (8, 0)); ((0, 1), (11, 1)); ((5, 8), (2, 4)); ((11, 4), (5, 8)); ((6, 0), (1, 8))].
(* an ordinary point *)
Definition s5' : ps GF13 := sp13 [((7, 2), (4, 5)); ((2, 0), (3, 8)); ((0, 3), (10, 10)); ((12, 3), (12, 6)); ((2, 2), (2, 10))].
Lemma s5_conserving : conserving 5 s5.
Proof. split; [reflexivity|]. split; [apply from_spinors_sound|]. split; [apply from_spinors_reproduces|fcomp]. Qed.
Lemma s5'_conserving : conserving 5 s5'.
Proof. split; [reflexivity|]. split; [apply from_spinors_sound|]. split; [apply from_spinors_reproduces|fcomp]. Qed.
Definition is0 {K : Fld} (r : result K) : bool := match r with Ok x => feqb x f0 | Err _ => false end.
Lemma is0_true {K : Fld} (r : result K) : is0 r = true -> r = Ok f0.
Proof. destruct r as [x|]; [|discriminate]. cbn [is0]. intros H. apply feqb_ok in H. congruence. Qed.
Definition subsets_of (n : Z) : list (list Z) := flat_map (fun k => combinations k (zrange 1 (n + 1))) (seq 1 (Z.to_nat n)).
Definition shorts (n : Z) : list short :=
  flat_map (fun i => flat_map (fun j => SAng i j :: SSq i j :: map (fun l => SThree i l j) (subsets_of n)) (zrange 1 (n + 1))) (zrange 1 (n + 1)) ++ map SMan (subsets_of n).
Lemma subsets_of_In n l : legset n l -> l <> [] -> In l (subsets_of n).
Proof.
  intros [S F] N. apply in_flat_map. exists (length l). assert (I : incl l (zrange 1 (n + 1))) by (intros x X; rewrite Forall_forall in F; apply zrange_In; specialize (F x X); lia).
  split; [|apply comb_In; auto using zrange_sorted]. apply in_seq.
  assert (L := NoDup_incl_length (sorted_lt_NoDup l S) I). assert (E : length (zrange 1 (n + 1)) = Z.to_nat n) by (unfold zrange; rewrite map_length, seq_length; lia).
  destruct l; [congruence|]. cbn [length] in *. lia.
Qed.
Lemma shorts_In n x : proper n x -> In x (shorts n).
Proof.
  unfold shorts. rewrite in_app_iff. destruct x as [i j|i j|l|i l j]; cbn [proper].
  - intros [A B]. left. apply in_flat_map. exists i. split; [apply zrange_In; lia|]. apply in_flat_map. exists j. split; [apply zrange_In; lia|]. left. reflexivity.
  - intros [A B]. left. apply in_flat_map. exists i. split; [apply zrange_In; lia|]. apply in_flat_map. exists j. split; [apply zrange_In; lia|]. right. left. reflexivity.
  - intros [A B]. right. apply in_map. apply subsets_of_In; assumption.
  - intros (A & B & C & D). left. apply in_flat_map. exists i. split; [apply zrange_In; lia|]. apply in_flat_map. exists j. split; [apply zrange_In; lia|]. right. right. apply in_map_iff. exists l. split; [reflexivity|]. apply subsets_of_In; assumption.
Qed.
(* a shorter invariant that vanishes at s vanishes at s' *)
Definition harmless {K : Fld} (s s' : ps K) (x : short) : bool := if is0 (short_val s x) then is0 (short_val s' x) else true.
Lemma no_product {K : Fld} n (s s' : ps K) ang a I J d : conserving n s -> conserving n s' -> is0 (four s ang a I J d) = true -> is0 (four s' ang a I J d) = false ->
  forallb (harmless s s') (shorts n) = true -> ~ is_product n ang a I J d.
Proof.
  intros C C' Z NZ H (x & y & Px & Py & neg & P). rewrite forallb_forall in H. assert (Hx := H x (shorts_In n x Px)). assert (Hy := H y (shorts_In n y Py)).
  destruct (P K s C) as (v & w & V & W & F). destruct (P K s' C') as (v' & w' & V' & W' & F'). apply is0_true in Z. rewrite F in Z. injection Z as Z.
  assert (Q : v = f0 \/ w = f0).
  { apply mul_zero. destruct neg; cbn [signed] in Z; [apply opp_zero, Z|exact Z]. }
  assert (E : four s' ang a I J d = Ok f0).
  { rewrite F'. f_equal. destruct Q as [-> | ->].
    - unfold harmless in Hx. rewrite V, V' in Hx. cbn [is0] in Hx. rewrite feqb_refl in Hx. apply feqb_ok in Hx. subst v'. apply zero_left.
    - unfold harmless in Hy. rewrite W, W' in Hy. cbn [is0] in Hy. rewrite feqb_refl in Hy. apply feqb_ok in Hy. subst w'. apply zero_right. }
  rewrite E in NZ. cbn [is0] in NZ. rewrite feqb_refl in NZ. discriminate.
Qed.
Lemma listed_nz {K : Fld} (s : ps K) l : forallb (fun t => match compute_text 1 s [] t with Ok (AVal (VS x)) => negb (feqb x f0) | _ => false end) l = true ->
  forall t, In t l -> exists x, compute_text 1 s [] t = Ok (AVal (VS x)) /\ x <> f0.
Proof.
  intros H t T. rewrite forallb_forall in H. specialize (H t T). destruct (compute_text 1 s [] t) as [[[x| | |]|]|]; try discriminate. exists x. split; [reflexivity|]. intros ->. rewrite feqb_refl in H. discriminate.
Qed.
(* all options off: nothing is restricted, nothing added *)
Definition open_opts : options := Opts true true false false false.
Definition inv5_open : invs := ok_or (from_scratch env0 5 open_opts).
Lemma inv5_open_ok : from_scratch env0 5 open_opts = Ok inv5_open. Proof. apply ok_or_eq. vm_compute. reflexivity. Qed.
Theorem C63_refuted : exists n r b, gen_N n 4 = Ok r /\ In b r /\ ~ In b (drop_products n r) /\
  ~ is_product n (b_ang b) (b_i b) (nth 0 (b_mid b) []) (nth 1 (b_mid b) []) (b_j b) /\
  exists s : ps GF13, conserving n s /\ four_of s b = Ok f0 /\
    forall v, reorders (e_ord v) -> (forall t, e_test v t = Ok true) -> exists i, from_scratch v n open_opts = Ok i /\ forall t, In t (full i) -> exists x, compute_text 1 s [] t = Ok (AVal (VS x)) /\ x <> f0.
Proof.
  exists 5, (raw4 5), brk5. split; [apply gen_4_raw|]. split; [apply memb_In; vm_compute; reflexivity|]. split; [|split].
  - intros H. apply memb_In in H. revert H. apply not_true_iff_false. vm_compute. reflexivity.
  - apply (no_product 5 s5 s5'); [apply s5_conserving|apply s5'_conserving|vm_compute; reflexivity..].
  - exists s5. split; [apply s5_conserving|]. split; [apply is0_true; vm_compute; reflexivity|]. intros v R T. exists inv5_open. split.
    + rewrite <- inv5_open_ok. apply small_orders; [lia|exact R|intros b br l; apply Permutation_refl|exact T].
    + apply listed_nz. vm_compute. reflexivity.
Qed.
Print Assumptions C63_refuted.

(* ---- C64: brackets that agree ---- *)
Theorem C64_three_forms : forall n ang a I J L, three_shares n a I J L -> I <> [] -> J <> [] -> L <> [] -> forall (K : Fld) (s : ps K), conserving n s ->
  exists v, four s ang a I J a = Ok v /\ four s ang a I L a = Ok (fopp v) /\ four s ang a L J a = Ok (fopp v) /\ four s ang a J I a = Ok (fopp v).
Proof. exact three_forms. Qed.
Print Assumptions C64_three_forms.
(* what the second loop takes away is the double of another one *)
Theorem C64_removed : forall ord, reorders ord -> forall n r l b, gen_N n 4 = Ok r -> gen_4 ord n = Ok l -> In b (drop_products n r) -> ~ In b l ->
  exists b', In b' (drop_products n r) /\ b' <> b /\ doubles n b b'.
Proof. exact removed. Qed.
Print Assumptions C64_removed.
Lemma odd1009 : 1009 <> 2. Proof. discriminate. Qed.
Definition GFL : Fld := GFF 1009 (primeb_ok 1009 eq_refl) odd1009.
Definition gL (n : Z) : GFL := gmk 1009 (primeb_ok 1009 eq_refl) odd1009 n.
Definition spL (l : list (Z * Z * (Z * Z))) : ps GFL := from_spinors (map (fun x => (V2 (gL (fst (fst x))) (gL (snd (fst x))), V2 (gL (fst (snd x))) (gL (snd (snd x))))) l).
Definition s7 : ps GFL := spL [((798, 264), (926, 294)); ((585, 290), (499, 257)); ((869, 436), (538, 600)); ((713, 296), (566, 442)); ((326, 565), (302, 323)); ((232, 153), (828, 39)); ((374, 338), (475, 100))].
Lemma s7_conserving : conserving 7 s7.
Proof. split; [reflexivity|]. split; [apply from_spinors_sound|]. split; [apply from_spinors_reproduces|fcomp]. Qed.
(* ⟨4|(2+3)|(5+6)|4⟩ = -⟨4|(2+3)|(1+7)|4⟩ = -⟨4|(1+7)|(5+6)|4⟩ at a point with seven legs *)
Definition brk7 : brk := Brk true 4 [[2; 3]; [5; 6]] 4.
Definition brk7' : brk := Brk true 4 [[1; 7]; [5; 6]] 4.
Lemma shares7 : three_shares 7 4 [2; 3] [5; 6] [1; 7].
Proof.
  unfold three_shares. split; [|split; [|split; [|split; [lia|split; [|split; [|split]]]]]]; try (split; repeat constructor; lia); try (cbn [In]; lia).
Qed.
Lemma doubles7 : doubles 7 brk7 brk7'.
Proof. do 4 (split; [reflexivity|]). exists [2; 3], [5; 6], [1; 7]. split; [exact shares7|]. split; [reflexivity|]. right. reflexivity. Qed.
Example C64_three_forms_ex : three_shares 7 4 [2; 3] [5; 6] [1; 7] /\ conserving 7 s7 /\ four s7 true 4 [2; 3] [5; 6] 4 = Ok f0 /\
  exists x, four s7 false 4 [2; 3] [5; 6] 4 = Ok x /\ four s7 false 4 [2; 3] [1; 7] 4 = Ok (fopp x) /\ x <> f0.
Proof.
  split; [exact shares7|]. split; [exact s7_conserving|]. split; [apply is0_true; vm_compute; reflexivity|].
  destruct (C64_three_forms 7 false 4 [2; 3] [5; 6] [1; 7] shares7 ltac:(discriminate) ltac:(discriminate) ltac:(discriminate) GFL s7 s7_conserving) as (v & A & B & _).
  exists v. split; [exact A|]. split; [exact B|]. intros ->. assert (N : is0 (four s7 false 4 [2; 3] [5; 6] 4) = false) by (vm_compute; reflexivity). rewrite A in N. cbn [is0] in N. rewrite feqb_refl in N. discriminate.
Qed.

(* false: that one of the brackets which agree is kept.  Seven legs, default options, ascending sets:
   ⟨4|(2+3)|(5+6)|4⟩ and what agrees with it are all taken away; at s7 it is zero while nothing
   that Invariants lists is. *)
Lemma seventh (r : result invs) (f : pystr -> bool) : match r with Ok i => forallb f (full i) | Err _ => false end = true -> exists i, r = Ok i /\ forallb f (full i) = true.
Proof. destruct r as [i|]; [|discriminate]. intros H. exists i. auto. Qed.
Theorem C64_refuted : exists (rank : Z -> Z) n b i, (forall x y, rank x = rank y -> x = y) /\ In b (drop_products n (raw4 n)) /\ from_scratch (secret rank) n default_options = Ok i /\
  exists s : ps GFL, conserving n s /\ four_of s b = Ok f0 /\ forall t, In t (full i) -> exists x, compute_text 1 s [] t = Ok (AVal (VS x)) /\ x <> f0.
Proof.
  destruct (seventh (seven (fun x => x)) (fun t => match compute_text 1 s7 [] t with Ok (AVal (VS x)) => negb (feqb x f0) | _ => false end)) as (i & E & N); [vm_compute; reflexivity|].
  exists (fun x => x), 7, brk7, i. split; [auto|]. split; [apply memb_In; vm_compute; reflexivity|]. split; [rewrite seven_eq; exact E|].
  exists s7. split; [exact s7_conserving|]. split; [apply is0_true; vm_compute; reflexivity|]. apply listed_nz. exact N.
Qed.
Print Assumptions C64_refuted.
(* what that loop was given: the hypotheses of C64_removed *)
Example C64_removed_ex : exists l, gen_N 7 4 = Ok (raw4 7) /\ gen_4 (e_ord (secret (fun x => x))) 7 = Ok l /\ In brk7 (drop_products 7 (raw4 7)) /\ ~ In brk7 l /\ In brk7' (drop_products 7 (raw4 7)) /\ doubles 7 brk7 brk7'.
Proof.
  assert (exists l, gen_4 (e_ord (secret (fun x => x))) 7 = Ok l /\ memb brk7 l = false) as (l & E & N).
  { rewrite gen_4_rows. destruct (rmap (@concat brk) (rmapM (row_run (e_ord (secret (fun x => x))) 7) (zrange 1 (7 + 1)))) as [l|] eqn:E.
    - exists l. split; [reflexivity|]. assert (B : match rmap (@concat brk) (rmapM (row_run (e_ord (secret (fun x => x))) 7) (zrange 1 (7 + 1))) with Ok l => memb brk7 l | Err _ => true end = false) by (vm_compute; reflexivity). rewrite E in B. exact B.
    - exfalso. assert (B : match rmap (@concat brk) (rmapM (row_run (e_ord (secret (fun x => x))) 7) (zrange 1 (7 + 1))) with Ok l => true | Err _ => false end = true) by (vm_compute; reflexivity). rewrite E in B. discriminate. }
  exists l. split; [apply gen_4_raw|]. split; [exact E|]. split; [apply memb_In; vm_compute; reflexivity|]. split; [intros H; apply memb_In in H; congruence|].
  split; [apply memb_In; vm_compute; reflexivity|exact doubles7].
Qed.
