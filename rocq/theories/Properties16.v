(* C56-C59: the strings of compute, chains as data, subscripts by strings, generated strings. *)
From Coq Require Import Ascii String.
From Coq Require Import List ZArith Bool Lia.
From Verif Require Import Base Fld FldInst Particle ParticleSpec Index IndexThm Phase Compute ComputeSpec Symm Str MassesThm Gen GenSpec Parse Text TextSpec TextThm4 TextThm5 TextThm6 Properties04 Properties11.
Import Compute.
Import ListNotations.
Open Scope Z_scope.

(* C56: compute applied to a text that shows the invariant e, with ordinary or bold digits,
   is the value of e: for all 20 kinds of strings, all labels, all lengths. *)
Theorem C56_reads : forall (K : Fld) (s : ps K) A f e t u, shows e t -> in_bold t u ->
  compute_text (S f) s A u = rmap AVal (compute s e).
Proof. intros K. exact compute_shows. Qed.
Print Assumptions C56_reads.
(* no text, with whatever digits in bold, shows two invariants *)
Theorem C56_one_meaning : forall e e' t t' u, shows e t -> shows e' t' -> in_bold t u -> in_bold t' u -> e = e'.
Proof.
  intros e e' t t' u S S' B B'. destruct (read_bold e t u S B) as (w & E & C). destruct (read_bold e' t' u S' B') as (w' & E' & C'). congruence.
Qed.
Print Assumptions C56_one_meaning.
Lemma shown_nz (r : result (answer GF13)) z : match r with Ok (AVal (VS x)) => negb (feqb x z) | _ => false end = true -> exists x, r = Ok (AVal (VS x)) /\ x <> z.
Proof. destruct r as [[[x| | |]|]|]; try discriminate. intros H. exists x. split; [reflexivity|]. intros ->. rewrite (feqb_refl (K := GF13)) in H. discriminate. Qed.
(* ⟨1|2+13|(4-5)|6⟩, Δ_12|34|56, tr5(1|2+3|4|5), s12 and [𝟏|2|𝟑⟩ *)
Definition show1 : pystr := [10216] ++ lit "1|2+13|(4-5)|6" ++ [10217].
Definition show2 : pystr := [916] ++ lit "_12|34|56".
Definition show3 : pystr := lit "[1|2|3" ++ [10217].
Definition show3_bold : pystr := [91; 120783; 124; 50; 124; 120785; 10217].
Example C56_ex : shows (IChain OAng 1 [(2, [(true, 13)]); (4, [(false, 5)])] 6 CAng) show1 /\ shows (IDelta [[1; 2]; [3; 4]; [5; 6]]) show2 /\
  shows (ITr5 (1, []) (2, [(true, 3)]) (4, []) (5, [])) (lit "tr5(1|2+3|4|5)") /\ shows (IS [1; 2]) (lit "s12") /\
  shows (IChain OSq 1 [(2, [])] 3 CAng) show3 /\ in_bold show3 show3_bold /\
  (exists x, compute_text 1 ex6 [] show3_bold = Ok (AVal (VS x)) /\ x <> 0%fld).
Proof.
  assert (E2 : forall k, 0 <= k -> entry_ok (k, [])) by (intros k H; split; [exact H|constructor]).
  split. { change show1 with (opening OAng ++ dec 1 ++ lit "|" ++ (entry_text (2, [(true, 13)]) ++ lit "|" ++ (lit "(" ++ entry_text (4, [(false, 5)]) ++ lit ")")) ++ lit "|" ++ dec 6 ++ closing CAng).
    apply w_chain; try lia. apply next_entry; [apply bare|apply last_entry, round]; (split; [cbn [fst]; lia|repeat constructor; cbn; lia]). }
  split. { change show2 with ([916; 95] ++ (digits_text [1; 2] ++ lit "|" ++ (digits_text [3; 4] ++ lit "|" ++ digits_text [5; 6]))).
    apply w_Delta; [cbn; lia|]. repeat constructor; try discriminate; unfold one_digit; lia. }
  split. { change (lit "tr5(1|2+3|4|5)") with (lit "tr5(" ++ (entry_text (1, []) ++ lit "|" ++ entry_text (2, [(true, 3)]) ++ lit "|" ++ entry_text (4, []) ++ lit "|" ++ entry_text (5, [])) ++ lit ")").
    apply w_tr5_round. apply next_bare; [apply E2; lia|]. apply next_bare; [split; [cbn; lia|repeat constructor; cbn; lia]|]. apply next_bare; [apply E2; lia|]. apply last_bare, E2. lia. }
  split. { apply (w_S [1; 2] (lit "s") []); [left; reflexivity|right; reflexivity|]. split; [discriminate|]. repeat constructor; lia. }
  split. { change show3 with (opening OSq ++ dec 1 ++ lit "|" ++ entry_text (2, []) ++ lit "|" ++ dec 3 ++ closing CAng). apply w_chain; try lia. apply last_entry, bare, E2. lia. }
  split. { apply bold_same. apply (bold_digit 1); [unfold one_digit; lia|]. do 3 apply bold_same. apply (bold_digit 3); [unfold one_digit; lia|]. apply bold_same, bold_nil. }
  apply (shown_nz _ 0%fld). vm_compute. reflexivity.
Qed.
(* the same for open chains is false with round brackets around several entries: |(1+2)|(3+4)|5]
   is not recognised, while |1+2|3+4|5] is *)
Theorem C56_open_refuted : exists es t d c, shows_entries es t /\ 0 <= d /\ c <> CGt /\
  classify (lit "|" ++ t ++ lit "|" ++ dec d ++ closing c) <> TInv (IOpenBegin es d c) /\
  (forall (K : Fld) (s : ps K) A f x, compute_text (S f) s A (lit "|" ++ t ++ lit "|" ++ dec d ++ closing c) <> Ok x).
Proof.
  exists [(1, [(true, 2)]); (3, [(true, 4)])], (lit "(1+2)|(3+4)"), 5, CSq. split.
  { change (lit "(1+2)|(3+4)") with ((lit "(" ++ entry_text (1, [(true, 2)]) ++ lit ")") ++ lit "|" ++ (lit "(" ++ entry_text (3, [(true, 4)]) ++ lit ")")).
    apply next_entry; [apply round|apply last_entry, round]; (split; [cbn; lia|repeat constructor; cbn; lia]). }
  split; [lia|]. split; [discriminate|]. split; [vm_compute; discriminate|].
  intros K s A f x. cbn [compute_text]. match goal with |- context [unbold ?t] => assert (U : unbold t = Ok t) by (vm_compute; reflexivity); rewrite U end. cbn [rbind].
  match goal with |- context [classify ?t] => assert (C : classify t = TExpr) by (vm_compute; reflexivity); rewrite C end.
  vm_compute. discriminate.
Qed.
Print Assumptions C56_open_refuted.
(* round brackets without a bar between them are taken away, and the digits run together:
   [1|(2+3)(4+5)|6] is read as [1|2+34+5|6] *)
Theorem C56_glued : classify (lit "[1|(2+3)(4+5)|6]") = TInv (IChain OSq 1 [(2, [(true, 34); (true, 5)])] 6 CSq).
Proof. vm_compute. reflexivity. Qed.
Print Assumptions C56_glued.

(* C57: _lNB_to_string writes the chain of its arguments, and _get_lNB reads the arguments
   back, for all labels, all numbers of parts and all sizes of the parts. *)
Theorem C57_writes : forall o s ms e c, 0 <= s -> 0 <= e -> parts_ok ms ->
  shows (IChain o s (map sum_entry ms) e c) (lNB_to_string (opening o) s ms e (closing c)).
Proof. exact lNB_shows. Qed.
Print Assumptions C57_writes.
Theorem C57_back : forall o s ms e c, 0 <= s -> 0 <= e -> parts_ok ms ->
  get_lNB (lNB_to_string (opening o) s ms e (closing c)) = Ok (s :: concat ms ++ [e], s, ms, e).
Proof. exact lNB_back. Qed.
Print Assumptions C57_back.
(* _get_lNB also reads chains with round brackets left out *)
Theorem C57_reads : forall o s ms t e c, 0 <= s -> 0 <= e -> parts_ok ms -> shows_entries (map sum_entry ms) t ->
  get_lNB (opening o ++ dec s ++ lit "|" ++ t ++ lit "|" ++ dec e ++ closing c) = Ok (s :: concat ms ++ [e], s, ms, e).
Proof. exact get_lNB_text. Qed.
Print Assumptions C57_reads.
Example C57_ex : parts_ok [[2; 13]; [4; 5; 7]] /\ lNB_to_string (opening OAng) 1 [[2; 13]; [4; 5; 7]] 6 (closing CAng) = [10216] ++ lit "1|(2+13)|(4+5+7)|6" ++ [10217] /\
  get_lNB ([10216] ++ lit "1|(2+13)|(4+5+7)|6" ++ [10217]) = Ok ([1; 2; 13; 4; 5; 7; 6], 1, [[2; 13]; [4; 5; 7]], 6).
Proof. split; [|split; vm_compute; reflexivity]. split; [discriminate|]. repeat constructor; try discriminate; lia. Qed.
(* a minus in a chain that compute reads: ValueError *)
Theorem C57_minus_refuted : exists o s es t e c, shows (IChain o s es e c) t /\ get_lNB t = Err ValueError.
Proof.
  exists OAng, 1, [(2, [(false, 3)])], (opening OAng ++ dec 1 ++ lit "|" ++ entry_text (2, [(false, 3)]) ++ lit "|" ++ dec 4 ++ closing CSq), 4, CSq.
  split; [|vm_compute; reflexivity]. apply w_chain; try lia. apply last_entry, bare. split; [cbn; lia|repeat constructor; cbn; lia].
Qed.
Print Assumptions C57_minus_refuted.

Lemma shows_side i d t : shows (side_inv d i) t -> spinor_text i d t.
Proof. destruct d; cbn [side_inv]; intros H; inversion H; subst; constructor; assumption. Qed.
(* C58: after oPs["⟨i|"] = v, and so for |i⟩, |i] and [i|, the subscript gives v back, the
   spinors of the other kind and the other legs are unchanged, and the point is sound. *)
Theorem C58_set_get : forall (K : Fld) (s : ps K) i d t v p, spinor_text i d t -> sound s -> getitem s i = Ok p -> r_d p <> None -> l_d p <> None ->
  exists s' p', setitem_text t v s = (s', Ok tt) /\ getitem_text s' t = Ok (ISpinor (side_val d v)) /\ sound s' /\ length s' = length s /\
    (forall k, k <> i -> getitem s' k = getitem s k) /\ getitem s' i = Ok p' /\ reproduces p' /\
    (forall d', In d' (other_side d) -> side_get d' p' = side_get d' p).
Proof. intros K. exact set_then_get. Qed.
Print Assumptions C58_set_get.
Example C58_set_get_ex : spinor_text 3 LRow (lit "[3|") /\ sound ex6 /\ (exists p, getitem ex6 3 = Ok p /\ r_d p <> None /\ l_d p <> None).
Proof.
  split; [apply (t_lrow 3); lia|]. split; [exact ex6_sound|]. destruct (ex6_leg 3) as (p & G & R); [lia|]. exists p. split; [exact G|].
  destruct R as (r & l & R & L & _). rewrite R, L. split; discriminate.
Qed.
(* assigning to any other string that compute understands does nothing, without an error *)
Theorem C58_ignored : forall (K : Fld) (s : ps K) e t v, shows e t -> (forall d i, ~ spinor_text i d t) -> setitem_text t v s = (s, Ok tt).
Proof. intros K s e t v S N. apply (set_other s e t v S). intros d i ->. exact (N d i (shows_side i d t S)). Qed.
Print Assumptions C58_ignored.
Example C58_ignored_ex : shows (IS2 1 2) (lit "[1|2]") /\ forall d i, ~ spinor_text i d (lit "[1|2]").
Proof. assert (S : shows (IS2 1 2) (lit "[1|2]")) by (apply (w_S2 1 2); lia). split; [exact S|]. intros d i T. apply side_shows in T. pose proof (C56_one_meaning _ _ _ _ _ S T (in_bold_refl _) (in_bold_refl _)) as E. destruct d; discriminate E. Qed.
(* reading any other string that compute understands gives the particle of its first digit:
   the label of two digits of s_12 or ⟨12|3⟩ is not seen *)
Theorem C58_first_digit : forall (K : Fld) (s : ps K) e t d u, shows e t -> (forall d i, ~ spinor_text i d t) -> filter is_digit t = d :: u ->
  getitem_text s t = rmap IParticle (getitem s (d - 48)).
Proof. intros K s e t d u S N. apply (get_other s e t d u S). intros d' i ->. exact (N d' i (shows_side i d' t S)). Qed.
Print Assumptions C58_first_digit.
Theorem C58_label_refuted : exists t : pystr, shows (IA2 12 3) t /\ forall (K : Fld) (s : ps K), getitem_text s t = rmap IParticle (getitem s 1).
Proof.
  exists (opening OAng ++ dec 12 ++ lit "|" ++ dec 3 ++ closing CAng). assert (S : shows (IA2 12 3) (opening OAng ++ dec 12 ++ lit "|" ++ dec 3 ++ closing CAng)) by (apply w_A2; try lia; left; reflexivity).
  split; [exact S|]. intros K s. apply (C58_first_digit K s (IA2 12 3) _ 49 [50; 51] S); [|reflexivity].
  intros d i T. apply side_shows in T. pose proof (C56_one_meaning _ _ _ _ _ S T (in_bold_refl _) (in_bold_refl _)) as E. destruct d; discriminate E.
Qed.
Print Assumptions C58_label_refuted.

Lemma in_by_dec {A} (dec : forall x y : A, {x = y} + {x <> y}) x l : (if in_dec dec x l then true else false) = true -> In x l.
Proof. destruct (in_dec dec x l); [auto|discriminate]. Qed.
Lemma four_legs : legs [1; 2; 1; 0].
Proof. split; [discriminate|]. repeat constructor; lia. Qed.
(* C59: every string that Invariants lists for a number n <= 9 of legs, with any options and
   any order of the sets, is computed by every point of n legs with spinors, and the value is
   a number. *)
Theorem C59_computed : forall (K : Fld) (s : ps K) v o l t f A, spinors_all s -> zlen s <= 9 -> set_order (e_iset v) ->
  from_scratch v (zlen s) o = Ok l -> In t (full l) -> exists x, compute_text (S f) s A t = Ok (AVal (VS x)).
Proof. intros K s v o l t f A SP N SO E H. exact (full_computed s SP N v o l t f A SO E H). Qed.
Print Assumptions C59_computed.
Example C59_ex : spinors_all ex6 /\ zlen ex6 = 6 /\ set_order (e_iset env0) /\ from_scratch env0 6 default_options = Ok inv6 /\ In (928 :: lit "_135") (full inv6) /\
  In ([10216] ++ lit "2|(1+3)|5]") (full inv6).
Proof.
  split. { apply Forall_forall. intros p H d. pose proof ex6_reproduces as R. rewrite Forall_forall in R. destruct (R p H) as (r & l & E1 & E2 & _ & _ & E3 & E4). destruct d; cbn [side_get]; congruence. }
  split; [reflexivity|]. split; [intros l x; reflexivity|]. split; [vm_compute; reflexivity|]. 
  split; apply (in_by_dec (list_eq_dec Z.eq_dec)); vm_compute; reflexivity.
Qed.
(* with ten legs the label 10 is read as the labels 1 and 0: s_1210 of the legs 1, 2, 10 *)
Theorem C59_ten_refuted : exists t : pystr, In t (gen_s 10) /\ (forall v o l, from_scratch v 10 o = Ok l -> In t (full l)) /\
  forall (K : Fld) (s : ps K) A f x, zlen s = 10 -> compute_text (S f) s A t <> Ok x.
Proof.
  exists (lit "s_1210"). assert (G : In (lit "s_1210") (gen_s 10)) by (apply (in_by_dec (list_eq_dec Z.eq_dec)); vm_compute; reflexivity).
  split; [exact G|]. split.
  - intros v o l E. unfold full. rewrite !in_app_iff. replace (invs_s l) with (gen_s 10); [tauto|]. unfold from_scratch in E.
    repeat match type of E with rbind ?x _ = _ => destruct x; [|discriminate]; cbn [rbind] in E end. injection E as <-. reflexivity.
  - intros K s A f x L. replace (lit "s_1210") with (lit "s" ++ lit "_" ++ digits_text [1; 2; 1; 0]) by reflexivity.
    rewrite (compute_shows s A f (IS [1; 2; 1; 0]) _ _ (w_S [1; 2; 1; 0] (lit "s") (lit "_") (or_introl eq_refl) (or_introl eq_refl) four_legs) (in_bold_refl _)).
    unfold compute, c_S, mom_sum. cbn [rmapM]. destruct (getitem_ok s 1) as (p & P & _); [lia|]. destruct (getitem_ok s 2) as (q & Q & _); [lia|].
    unfold mom at 1 2 3. rewrite P, Q. cbn [rmap rbind]. unfold mom. replace (getitem s 0) with (@Err (particle K) IndexError); [discriminate|]. symmetry. apply (index_out s 0 p). lia.
Qed.
Print Assumptions C59_ten_refuted.
