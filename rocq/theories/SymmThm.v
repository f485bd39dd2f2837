(* Proofs about Symm.v: C13-C15, C42, C43. *)
From Coq Require Import List ZArith Bool Lia Permutation Sorted.
From Verif Require Import Base Fld Particle ParticleSpec ParticleThm Index IndexThm Phase PhaseSpec PhaseThm Det Arcs Compute ComputeSpec ComputeThm ComputeThm2 ComputeThm3 ComputeThm4 ComputeThm5 Symm SymmSpec.
Import ListNotations.
Open Scope Z_scope.

(* ---- sorting ---- *)
Section Sort.
Context {A : Type}.
Implicit Types (l : list (Z * A)).
Lemma kinsert_perm x l : Permutation (kinsert x l) (x :: l).
Proof.
  induction l as [|y t IH]; cbn; [reflexivity|]. destruct (fst x <=? fst y); [reflexivity|].
  rewrite IH. apply perm_swap.
Qed.
Lemma ksort_perm l : Permutation (ksort l) l.
Proof. induction l as [|x l IH]; cbn; [reflexivity|]. rewrite kinsert_perm, IH. reflexivity. Qed.
Definition kle (x y : Z * A) : Prop := fst x <= fst y.
Lemma kinsert_sorted x l : StronglySorted kle l -> StronglySorted kle (kinsert x l).
Proof.
  induction 1 as [|y t S IH F]; cbn; [repeat constructor|]. destruct (Z.leb_spec (fst x) (fst y)).
  - constructor; [constructor; assumption|]. constructor; [assumption|]. eapply Forall_impl; [|exact F]. intros z. unfold kle. lia.
  - constructor; [assumption|]. apply Forall_forall. intros z Hz. apply (Permutation_in _ (kinsert_perm x t)) in Hz. destruct Hz as [<-|Hz]; [unfold kle; lia|].
    apply (proj1 (Forall_forall _ _) F z Hz).
Qed.
Lemma ksort_sorted l : StronglySorted kle (ksort l).
Proof. induction l as [|x l IH]; cbn; [constructor|]. apply kinsert_sorted, IH. Qed.
(* a list whose keys do not decrease is left alone *)
Lemma ksort_id l : StronglySorted kle l -> ksort l = l.
Proof.
  induction 1 as [|x l S IH F]; cbn; [reflexivity|]. fold (ksort l). rewrite IH. destruct l as [|y t]; [reflexivity|]. cbn.
  apply Forall_inv in F. unfold kle in F. destruct (Z.leb_spec (fst x) (fst y)); [reflexivity|lia].
Qed.
Lemma sorted_keys l : StronglySorted kle l -> NoDup (map fst l) -> StronglySorted Z.lt (map fst l).
Proof.
  induction 1 as [|x l S IH F]; cbn; intros ND; [constructor|]. apply NoDup_cons_iff in ND as [NI ND]. constructor; [apply IH, ND|].
  apply Forall_forall. intros k Hk. apply in_map_iff in Hk as (y & <- & Hy). pose proof (proj1 (Forall_forall _ _) F y Hy) as L. unfold kle in L.
  assert (fst x <> fst y) by (intros E; apply NI; rewrite E; apply in_map, Hy). lia.
Qed.
End Sort.

(* ---- permutations as functions ---- *)
Lemma nth_error_ext {A} (l : list A) : forall l', (forall k, nth_error l k = nth_error l' k) -> l = l'.
Proof.
  induction l as [|x l IH]; intros [|y l'] H; [reflexivity|specialize (H 0%nat); discriminate..|].
  f_equal; [specialize (H 0%nat); injection H; auto|]. apply IH. intros k. apply (H (S k)).
Qed.
Lemma upto_nth n k : (k < n)%nat -> nth_error (upto n) k = Some (Z.of_nat k + 1).
Proof.
  intros L. unfold upto. rewrite nth_error_map. rewrite (nth_error_nth' _ 0%nat) by (rewrite seq_length; lia). rewrite seq_nth by lia. cbn. f_equal. lia.
Qed.
Lemma upto_length n : length (upto n) = n. Proof. unfold upto. rewrite map_length, seq_length. reflexivity. Qed.
Lemma is_perm_length n p : is_perm n p -> length p = n.
Proof. intros P. rewrite (Permutation_length P). apply upto_length. Qed.
Lemma papp_in p k : 1 <= k <= Z.of_nat (length p) -> nth_error p (Z.to_nat (k - 1)) = Some (papp p k).
Proof.
  intros R. unfold papp. destruct (Z.leb_spec 1 k), (Z.leb_spec k (Z.of_nat (length p))); try lia. cbn [andb].
  apply nth_error_nth'. lia.
Qed.
Lemma papp_out p k : ~ (1 <= k <= Z.of_nat (length p)) -> papp p k = k.
Proof. intros R. unfold papp. destruct (Z.leb_spec 1 k), (Z.leb_spec k (Z.of_nat (length p))); try lia; reflexivity. Qed.
Lemma papp_range n p k : is_perm n p -> 1 <= k <= Z.of_nat n -> 1 <= papp p k <= Z.of_nat n.
Proof.
  intros P R. pose proof (is_perm_length n p P) as L. assert (N := papp_in p k ltac:(lia)). apply nth_error_In in N.
  apply upto_In. apply (Permutation_in _ P N).
Qed.
Lemma papp_inj n p j k : is_perm n p -> papp p j = papp p k -> j = k.
Proof.
  intros P E. pose proof (is_perm_length n p P) as L.
  assert (ND : NoDup p) by (apply (Permutation_NoDup (Permutation_sym P)), upto_NoDup).
  destruct (Z_le_dec 1 j), (Z_le_dec j (Z.of_nat n)), (Z_le_dec 1 k), (Z_le_dec k (Z.of_nat n));
  try (rewrite (papp_out p j) in E by lia); try (rewrite (papp_out p k) in E by lia);
  try (pose proof (papp_range n p j P ltac:(lia))); try (pose proof (papp_range n p k P ltac:(lia))); try lia.
  assert (Ej := papp_in p j ltac:(lia)). assert (Ek := papp_in p k ltac:(lia)). rewrite <- E in Ek.
  assert (Z.to_nat (j - 1) = Z.to_nat (k - 1)); [|lia]. apply (proj1 (NoDup_nth_error p) ND); [lia|congruence].
Qed.
Lemma papp_surj n p k : is_perm n p -> exists j, papp p j = k /\ (1 <= k <= Z.of_nat n -> 1 <= j <= Z.of_nat n).
Proof.
  intros P. pose proof (is_perm_length n p P) as L. destruct (Z_le_dec 1 k), (Z_le_dec k (Z.of_nat n)); try (exists k; split; [apply papp_out; lia|lia]).
  assert (I : In k p) by (apply (Permutation_in _ (Permutation_sym P)), upto_In; lia).
  apply In_nth_error in I as (q & E). assert (q < length p)%nat by (apply nth_error_Some; congruence).
  exists (Z.of_nat q + 1). split; [|lia]. assert (N := papp_in p (Z.of_nat q + 1) ltac:(lia)).
  replace (Z.to_nat (Z.of_nat q + 1 - 1)) with q in N by lia. congruence.
Qed.
Lemma papp_upto n k : papp (upto n) k = k.
Proof.
  destruct (Z_le_dec 1 k), (Z_le_dec k (Z.of_nat n)); try (apply papp_out; rewrite upto_length; lia).
  assert (N := papp_in (upto n) k ltac:(rewrite upto_length; lia)). rewrite upto_nth in N by lia. injection N. lia.
Qed.
Lemma compose_perm n p q : is_perm n p -> is_perm n q -> is_perm n (compose p q).
Proof.
  intros P Q. unfold is_perm, compose. pose proof (is_perm_length n p P) as L.
  transitivity (map (papp p) (upto n)); [apply Permutation_map, Q|]. assert (E : map (papp p) (upto n) = p); [|rewrite E; exact P].
  apply nth_error_ext. intros k. rewrite nth_error_map. destruct (Nat.lt_ge_cases k n) as [H|H].
  - rewrite upto_nth by assumption. cbn [option_map]. rewrite <- papp_in by lia. f_equal. lia.
  - rewrite (proj2 (nth_error_None (upto n) k)) by (rewrite upto_length; lia). symmetry. apply nth_error_None. lia.
Qed.
Lemma papp_compose n p q k : is_perm n p -> is_perm n q -> papp (compose p q) k = papp p (papp q k).
Proof.
  intros P Q. pose proof (is_perm_length n p P) as Lp. pose proof (is_perm_length n q Q) as Lq.
  assert (Lc : length (compose p q) = n) by (unfold compose; rewrite map_length; assumption).
  destruct (Z_le_dec 1 k), (Z_le_dec k (Z.of_nat n)); try (rewrite (papp_out (compose p q)), (papp_out q), (papp_out p) by lia; reflexivity).
  assert (N := papp_in (compose p q) k ltac:(lia)). unfold compose in N |- *. rewrite nth_error_map, (papp_in q k) in N by lia. cbn in N. congruence.
Qed.
Lemma papp_ext n p q : length p = n -> length q = n -> (forall k, papp p k = papp q k) -> p = q.
Proof.
  intros Lp Lq H. apply nth_error_ext. intros k. destruct (Nat.lt_ge_cases k n).
  - specialize (H (Z.of_nat k + 1)). assert (Np := papp_in p (Z.of_nat k + 1) ltac:(lia)). assert (Nq := papp_in q (Z.of_nat k + 1) ltac:(lia)).
    replace (Z.to_nat (Z.of_nat k + 1 - 1)) with k in * by lia. congruence.
  - rewrite (proj2 (nth_error_None p k)), (proj2 (nth_error_None q k)) by lia. reflexivity.
Qed.

(* ---- strings of one-digit labels ---- *)
Lemma str_digit d : 0 <= d <= 9 -> str d = [d].
Proof.
  intros R. unfold str. cbn [digits_fuel]. rewrite Z.div_small by lia. cbn [Z.eqb]. rewrite Z.mod_small by lia. reflexivity.
Qed.
Lemma join_digits l : Forall (fun d => 0 <= d <= 9) l -> join l = l.
Proof. unfold join. induction 1 as [|d l R F IH]; [reflexivity|]. cbn [map concat]. rewrite IH, str_digit by assumption. reflexivity. Qed.
Lemma is_perm_digits n p : (n <= 9)%nat -> is_perm n p -> Forall (fun d => 0 <= d <= 9) p.
Proof. intros L P. apply Forall_forall. intros x I. apply (Permutation_in _ P), upto_In in I. lia. Qed.
Lemma join_perm n p : (n <= 9)%nat -> is_perm n p -> join p = p.
Proof. intros L P. apply join_digits, (is_perm_digits n); assumption. Qed.

(* ---- image ---- *)
Section Image.
Context {K : Fld}.
Implicit Types (s : ps K).
Lemma getitem_nth s k : getitem s k = if (1 <=? k) && (k <=? zlen s) then match nth_error s (Z.to_nat (k - 1)) with Some x => Ok x | None => Err IndexError end else Err IndexError.
Proof.
  destruct (Z.leb_spec 1 k), (Z.leb_spec k (zlen s)); cbn [andb];
  try (unfold getitem; rewrite rebase_out by lia; reflexivity).
  unfold getitem. rewrite rebase_in by lia. reflexivity.
Qed.
Lemma getitem_ext s s' : length s' = length s -> (forall k, getitem s' k = getitem s k) -> s' = s.
Proof.
  intros L H. apply nth_error_ext. intros q. destruct (Nat.lt_ge_cases q (length s)) as [Q|Q].
  - specialize (H (Z.of_nat q + 1)). rewrite !getitem_nth in H. unfold zlen in H.
    destruct (Z.leb_spec 1 (Z.of_nat q + 1)); [|lia]. destruct (Z.leb_spec (Z.of_nat q + 1) (Z.of_nat (length s))); [|lia].
    destruct (Z.leb_spec (Z.of_nat q + 1) (Z.of_nat (length s'))); [|lia]. cbn [andb] in H.
    replace (Z.to_nat (Z.of_nat q + 1 - 1)) with q in H by lia.
    destruct (nth_error s' q) eqn:E', (nth_error s q) eqn:E; congruence.
  - rewrite (proj2 (nth_error_None s q)), (proj2 (nth_error_None s' q)) by lia. reflexivity.
Qed.
Lemma index_of_app (pre : ps K) x suf : ~ In (r2 x) (map (fun p => r2 p) pre) -> index_of (pre ++ x :: suf) x = length pre.
Proof.
  induction pre as [|y pre IH]; cbn; intros N.
  - rewrite (proj2 (p_eqb_spec x x) eq_refl). reflexivity.
  - destruct (p_eqb y x) eqn:E; [apply p_eqb_spec in E; exfalso; apply N; left; assumption|]. f_equal. apply IH. intros I. apply N. right; assumption.
Qed.
Definition key_of (perm : pstring) s (x : particle K) : result (Z * particle K) :=
  match nth_error perm (index_of s x) with Some c => Ok (c, x) | None => Err IndexError end.
Lemma keyed_combine perm s : (length s <= length perm)%nat -> different s -> rmapM (key_of perm s) s = Ok (combine perm s).
Proof.
  intros L D.
  assert (G : forall suf pre psuf ppre, s = pre ++ suf -> perm = ppre ++ psuf -> length ppre = length pre -> rmapM (key_of perm s) suf = Ok (combine psuf suf)).
  { induction suf as [|x suf IH]; intros pre psuf ppre Es Ep Lp; [destruct psuf; reflexivity|].
    destruct psuf as [|c psuf].
    - exfalso. rewrite Es, Ep, !app_length in L. cbn in L. lia.
    - cbn [rmapM combine]. unfold key_of at 1. rewrite Es at 1.
      assert (NI : ~ In (r2 x) (map (fun p => r2 p) pre)).
      { unfold different in D. rewrite Es, map_app in D. cbn [map] in D. apply NoDup_remove_2 in D. intros I. apply D, in_or_app. left; assumption. }
      rewrite (index_of_app pre x suf NI). rewrite Ep at 1. rewrite nth_error_app2 by lia. rewrite Lp, Nat.sub_diag. cbn [nth_error].
      rewrite (IH (pre ++ [x]) psuf (ppre ++ [c])); [reflexivity|rewrite <- app_assoc; assumption|rewrite <- app_assoc; assumption|rewrite !app_length; cbn; lia]. }
  apply (G s [] perm []); reflexivity.
Qed.
Lemma combine_fst {A B} (l : list A) (l' : list B) : length l = length l' -> map fst (combine l l') = l.
Proof. revert l'. induction l as [|x l IH]; intros [|y l'] L; cbn; try discriminate; [reflexivity|]. f_equal. apply IH. injection L as L; exact L. Qed.
Lemma combine_snd {A B} (l : list A) (l' : list B) : length l = length l' -> map snd (combine l l') = l'.
Proof. revert l'. induction l as [|x l IH]; intros [|y l'] L; cbn; try discriminate; [reflexivity|]. f_equal. apply IH. injection L as L; exact L. Qed.
Lemma combine_nth_error {A B} (l : list A) (l' : list B) q a b : nth_error l q = Some a -> nth_error l' q = Some b -> nth_error (combine l l') q = Some (a, b).
Proof. revert l' q. induction l as [|x l IH]; intros [|y l'] [|q]; cbn; try discriminate; [congruence|]. apply IH. Qed.
Lemma image_perm s perm n : is_perm n perm -> length s = n -> (0 < n)%nat -> different s ->
  exists s', image_str perm s = Ok s' /\ length s' = n /\ (forall k, getitem s' (papp perm k) = getitem s k).
Proof.
  intros P Ls Hn D. pose proof (is_perm_length n perm P) as Lp.
  set (srt := ksort (combine perm s)).
  assert (EI : image_str perm s = Ok (map snd srt)).
  { unfold image_str. destruct perm as [|c t]; [cbn in Lp; lia|]. 
    change (rbind (rmapM (key_of (c :: t) s) s) (fun keyed => Ok (map snd (ksort keyed))) = Ok (map snd srt)).
    rewrite keyed_combine by (try assumption; lia). reflexivity. }
  assert (PS : Permutation srt (combine perm s)) by apply ksort_perm.
  assert (PK : Permutation (map fst srt) perm). { transitivity (map fst (combine perm s)); [apply Permutation_map, PS|rewrite combine_fst by lia; reflexivity]. }
  assert (EK : map fst srt = upto n).
  { apply sorted_ext.
    - apply sorted_keys; [apply ksort_sorted|]. apply (Permutation_NoDup (Permutation_sym PK)). apply (Permutation_NoDup (Permutation_sym P)), upto_NoDup.
    - unfold upto. apply seq_sorted.
    - intros x. split; intros I; [apply (Permutation_in _ P), (Permutation_in _ PK), I|].
      apply (Permutation_in _ (Permutation_sym PK)), (Permutation_in _ (Permutation_sym P)), I. }
  assert (LS : length (map snd srt) = n). { rewrite map_length, (Permutation_length PS), combine_length. lia. }
  exists (map snd srt). split; [exact EI|]. split; [exact LS|].
  intros k. rewrite !getitem_nth. unfold zlen. rewrite LS, Ls.
  destruct (Z_le_dec 1 k) as [K1|K1], (Z_le_dec k (Z.of_nat n)) as [K2|K2].
  2-4: rewrite papp_out by lia; destruct (Z.leb_spec 1 k), (Z.leb_spec k (Z.of_nat n)); try lia; reflexivity.
  pose proof (papp_range n perm k P ltac:(lia)) as R.
  destruct (Z.leb_spec 1 k), (Z.leb_spec k (Z.of_nat n)); try lia.
  destruct (Z.leb_spec 1 (papp perm k)), (Z.leb_spec (papp perm k) (Z.of_nat n)); try lia. cbn [andb].
  assert (Nk := papp_in perm k ltac:(lia)).
  destruct (nth_error s (Z.to_nat (k - 1))) as [x|] eqn:Ex; [|exfalso; apply nth_error_None in Ex; lia].
  assert (IC : In (papp perm k, x) srt).
  { apply (Permutation_in _ (Permutation_sym PS)). apply (nth_error_In _ (Z.to_nat (k - 1))). apply combine_nth_error; assumption. }
  apply In_nth_error in IC as (q & Eq).
  assert (Kq : nth_error (upto n) q = Some (papp perm k)) by (rewrite <- EK, nth_error_map, Eq; reflexivity).
  assert (q < n)%nat. { assert (nth_error (upto n) q <> None) by congruence. apply nth_error_Some in H3. rewrite upto_length in H3. assumption. }
  rewrite upto_nth in Kq by assumption. injection Kq as Kq. replace (Z.to_nat (papp perm k - 1)) with q by lia.
  rewrite nth_error_map, Eq. reflexivity.
Qed.
(* the property above determines the image *)
Lemma image_unique s s' perm n : is_perm n perm -> length s' = n -> length s = n ->
  (forall k, getitem s' (papp perm k) = getitem s (papp perm k)) -> s' = s.
Proof.
  intros P L' L H. apply getitem_ext; [lia|]. intros k. destruct (papp_surj n perm k P) as (j & <- & _). apply H.
Qed.
Lemma image_iff s s' perm n : is_perm n perm -> length s = n -> (0 < n)%nat -> different s ->
  (image_str perm s = Ok s' <-> length s' = n /\ forall k, getitem s' (papp perm k) = getitem s k).
Proof.
  intros P L N D. destruct (image_perm s perm n P L N D) as (t & E & Lt & G). rewrite E. split.
  - intros [= <-]. auto.
  - intros [L' G']. f_equal. symmetry. apply (image_unique t s' perm n P L' Lt). intros k. rewrite G, G'. reflexivity.
Qed.
(* without hypotheses on the string: a stable sort by characters *)
Lemma image_sorts perm s : perm <> [] -> (length s <= length perm)%nat -> different s ->
  image_str perm s = Ok (map snd (ksort (combine perm s))).
Proof.
  intros N L D. unfold image_str. destruct perm as [|c t]; [contradiction|].
  change (rbind (rmapM (key_of (c :: t) s) s) (fun keyed => Ok (map snd (ksort keyed))) = Ok (map snd (ksort (combine (c :: t) s)))).
  rewrite keyed_combine by assumption. reflexivity.
Qed.
Lemma combine_nth_inv {A B} (l : list A) (l' : list B) q x : nth_error (combine l l') q = Some x -> nth_error l q = Some (fst x) /\ nth_error l' q = Some (snd x).
Proof. revert l' q. induction l as [|a l IH]; intros [|b l'] [|q]; cbn; try discriminate; [intros [= <-]; split; reflexivity|]. apply IH. Qed.
Lemma combine_le_snd {A B} (l : list A) : forall l' : list B, (length l' <= length l)%nat -> map snd (combine l l') = l'.
Proof. induction l as [|x l IH]; intros [|y l'] L; cbn in *; try lia; [reflexivity..|]. f_equal. apply IH. lia. Qed.
Lemma different_nth s i j x y : different s -> nth_error s i = Some x -> nth_error s j = Some y -> r2 x = r2 y -> i = j.
Proof.
  intros D Hi Hj E. apply (proj1 (NoDup_nth_error _) D).
  - rewrite map_length. apply nth_error_Some. congruence.
  - rewrite !nth_error_map, Hi, Hj. cbn. rewrite E. reflexivity.
Qed.
(* if the image is the point itself, the characters used do not decrease *)
Lemma image_fixed perm s : perm <> [] -> (length s <= length perm)%nat -> different s -> image_str perm s = Ok s ->
  forall i j c d, (i < j < length s)%nat -> nth_error perm i = Some c -> nth_error perm j = Some d -> c <= d.
Proof.
  intros N L D E. rewrite (image_sorts perm s N L D) in E. injection E as E.
  set (srt := ksort (combine perm s)) in *. assert (PS : Permutation srt (combine perm s)) by apply ksort_perm.
  assert (Q : forall q k x, nth_error srt q = Some (k, x) -> nth_error perm q = Some k).
  { intros q k x Hq. assert (I : In (k, x) (combine perm s)) by (apply (Permutation_in _ PS), (nth_error_In _ _ Hq)).
    apply In_nth_error in I as (q' & Hq'). apply combine_nth_inv in Hq' as [Hp Hs]. cbn in Hp, Hs.
    assert (Hs' : nth_error s q = Some x) by (rewrite <- E, nth_error_map, Hq; reflexivity).
    rewrite (different_nth s q q' x x D Hs' Hs eq_refl). exact Hp. }
  intros i j c d R Hc Hd.
  assert (Ls : length srt = length s) by (rewrite (Permutation_length PS), combine_length; lia).
  destruct (nth_error srt i) as [[ki xi]|] eqn:Ei; [|apply nth_error_None in Ei; lia].
  destruct (nth_error srt j) as [[kj xj]|] eqn:Ej; [|apply nth_error_None in Ej; lia].
  rewrite (Q _ _ _ Ei) in Hc. rewrite (Q _ _ _ Ej) in Hd. injection Hc as <-. injection Hd as <-.
  assert (S := ksort_sorted (combine perm s)). fold srt in S. clear - S Ei Ej R.
  revert i j R Ei Ej. induction S as [|x l S IH F]; intros i j R Ei Ej; [destruct i; discriminate|].
  destruct j as [|j]; [lia|]. destruct i as [|i].
  - cbn in Ei, Ej. injection Ei as ->. apply (proj1 (Forall_forall _ _) F _ (nth_error_In _ _ Ej)).
  - apply (IH i j); [lia|assumption..].
Qed.
Lemma copy_wrong s : (10 <= length s)%nat -> different s -> copy s <> Ok s.
Proof.
  intros L D E. unfold copy, image, identity in E. cbn [fst snd] in E.
  assert (U : exists t, join (upto (length s)) = [1;2;3;4;5;6;7;8;9;1;0] ++ t /\ (length s - 10 <= length t)%nat).
  { replace (length s) with (10 + (length s - 10))%nat by lia. generalize (length s - 10)%nat. intros m. exists (join (map Z.of_nat (seq 11 m))). split.
    - unfold upto. rewrite seq_app, map_app. unfold join. rewrite map_app, concat_app. f_equal.
    - replace (10 + m - 10)%nat with m by lia. rewrite <- (seq_length m 11) at 1. rewrite <- (map_length Z.of_nat). unfold join.
      generalize (map Z.of_nat (seq 11 m)). induction l as [|x l IH]; [reflexivity|]. cbn [map concat length]. rewrite app_length.
      assert (1 <= length (str x))%nat; [|lia]. unfold str. cbn [digits_fuel].
      assert (H : forall f n acc, (length acc <= length (digits_fuel f n acc))%nat).
      { induction f as [|f IHf]; intros n acc; cbn [digits_fuel]; [lia|]. destruct (n / 10 =? 0); [cbn; lia|]. specialize (IHf (n / 10) (n mod 10 :: acc)). cbn [length] in IHf. lia. }
      destruct (x / 10 =? 0); [cbn; lia|]. apply (Nat.le_trans _ _ _ (le_n _)). specialize (H (Z.to_nat x) (x / 10) [x mod 10]). exact H. }
  destruct U as (t & U & Lt). rewrite U in E.
  destruct (image_str ([1;2;3;4;5;6;7;8;9;1;0] ++ t) s) as [s'|] eqn:Es; [|discriminate]. cbn [rmap] in E. injection E as ->.
  assert (X : 2 <= 1); [|lia].
  apply (image_fixed ([1;2;3;4;5;6;7;8;9;1;0] ++ t) s ltac:(discriminate) ltac:(rewrite app_length; cbn [length]; lia) D Es 1%nat 9%nat 2 1); [lia|reflexivity..].
Qed.
(* every image is a rearrangement *)
Lemma image_rearranges perm s s' : image_str perm s = Ok s' -> Permutation s' s.
Proof.
  unfold image_str. destruct perm as [|c t]; [discriminate|]. fold (key_of (c :: t) s).
  destruct (rmapM _ s) as [keyed|] eqn:E; [|discriminate]. cbn [rbind]. intros [= <-].
  assert (M : map snd keyed = s).
  { revert E. generalize s at 1. change (fun x => match nth_error (c :: t) (index_of s x) with Some c0 => Ok (c0, x) | None => Err IndexError end) with (key_of (c :: t) s).
    intros s0. revert keyed. assert (H : forall l keyed, rmapM (key_of (c :: t) s0) l = Ok keyed -> map snd keyed = l).
    { induction l as [|x l IH]; cbn; intros keyed H; [inversion H; reflexivity|]. destruct (key_of (c :: t) s0 x) as [y|] eqn:Ey; [|discriminate].
      destruct (rmapM (key_of (c :: t) s0) l) as [ys|] eqn:Eys; [|discriminate]. inversion H; subst. cbn. f_equal; [|apply IH; reflexivity].
      unfold key_of in Ey. destruct (nth_error (c :: t) (index_of s0 x)); [|discriminate]. inversion Ey; reflexivity. }
    intros keyed HH. apply H in HH. exact HH. }
  rewrite <- M. apply Permutation_map, ksort_perm.
Qed.
Lemma different_image s s' : Permutation s' s -> different s -> different s'.
Proof. intros P D. unfold different. apply (Permutation_NoDup (Permutation_sym (Permutation_map (fun p => r2 p) P))), D. Qed.
Lemma image_id s n : (0 < n <= 9)%nat -> length s = n -> different s -> image (identity n) s = Ok s.
Proof.
  intros R L D. unfold image, identity. cbn [fst snd]. rewrite (join_perm n) by (try lia; apply Permutation_refl).
  assert (E : image_str (upto n) s = Ok s); [|rewrite E; reflexivity].
  apply (image_iff s s (upto n) n (Permutation_refl _) L ltac:(lia) D). split; [assumption|]. intros k. rewrite papp_upto. reflexivity.
Qed.
Lemma image_str_compose s p q n : is_perm n p -> is_perm n q -> length s = n -> (0 < n)%nat -> different s ->
  rbind (image_str q s) (image_str p) = image_str (compose p q) s.
Proof.
  intros P Q L N D. destruct (image_perm s q n Q L N D) as (s1 & E1 & L1 & G1). rewrite E1. cbn [rbind].
  pose proof (different_image _ _ (image_rearranges _ _ _ E1) D) as D1.
  destruct (image_perm s1 p n P L1 N D1) as (s2 & E2 & L2 & G2). rewrite E2. symmetry.
  apply (image_iff s s2 (compose p q) n (compose_perm n p q P Q) L N D). split; [assumption|].
  intros k. rewrite (papp_compose n p q k P Q), G2, G1. reflexivity.
Qed.
(* flipping *)
Lemma flip_r2 (p : particle K) : r2 (fst (angles_for_squares p)) = mT (r2 p).
Proof.
  destruct p as [ru rd lu ld m mb f fd sp]. unfold angles_for_squares, bind, get, four_mom_from_r2b, try_except, modify, sps_d_to_sps_u,
    l_sp_d_to_l_sp_u, r_sp_d_to_r_sp_u, r2_sp_b_to_four_momentum, need_i, four_mom_to_four_mom_d, bind, get, need, ret, raise, modify.
  cbn. destruct ld, rd, sp as [[]|]; cbn; destruct (@fimag K); cbn; reflexivity.
Qed.
Lemma mT_inj (a b : m2 K) : mT a = mT b -> a = b.
Proof. destruct a, b. unfold mT. cbn. intros [= -> -> -> ->]. reflexivity. Qed.
Lemma p_eqb_flip (p q : particle K) : p_eqb (fst (angles_for_squares p)) (fst (angles_for_squares q)) = p_eqb p q.
Proof.
  destruct (p_eqb p q) eqn:E.
  - apply p_eqb_spec in E. apply p_eqb_spec. rewrite !flip_r2, E. reflexivity.
  - destruct (p_eqb (fst _) _) eqn:E'; [|reflexivity]. apply p_eqb_spec in E'. rewrite !flip_r2 in E'. apply mT_inj in E'. apply p_eqb_spec in E'. congruence.
Qed.
Lemma index_flip s x : index_of (ps_flip s) (fst (angles_for_squares x)) = index_of s x.
Proof. induction s as [|y s IH]; [reflexivity|]. cbn [ps_flip map index_of]. fold (ps_flip s). rewrite p_eqb_flip, IH. reflexivity. Qed.
Definition kflip (x : Z * particle K) := (fst x, fst (angles_for_squares (snd x))).
Lemma kinsert_flip x l : kinsert (kflip x) (map kflip l) = map kflip (kinsert x l).
Proof. induction l as [|y t IH]; cbn; [reflexivity|]. destruct (fst x <=? fst y); cbn; [reflexivity|]. rewrite IH. reflexivity. Qed.
Lemma ksort_flip l : ksort (map kflip l) = map kflip (ksort l).
Proof. induction l as [|x l IH]; [reflexivity|]. cbn [map]. unfold ksort in *. cbn [fold_right]. rewrite IH, kinsert_flip. reflexivity. Qed.
(* conjugation commutes with every permutation string *)
Lemma image_flip perm s : image_str perm (ps_flip s) = rmap ps_flip (image_str perm s).
Proof.
  unfold image_str. destruct perm as [|c t]; [reflexivity|].
  change (rbind (rmapM (key_of (c :: t) (ps_flip s)) (ps_flip s)) (fun keyed => Ok (map snd (ksort keyed))) =
    rmap ps_flip (rbind (rmapM (key_of (c :: t) s) s) (fun keyed => Ok (map snd (ksort keyed))))).
  assert (H : forall l, rmapM (key_of (c :: t) (ps_flip s)) (ps_flip l) = rmap (map kflip) (rmapM (key_of (c :: t) s) l)).
  { induction l as [|x l IH]; [reflexivity|]. unfold ps_flip in *. cbn [map rmapM]. unfold key_of at 1 3. fold (ps_flip s). rewrite index_flip.
    fold (ps_flip s) in IH. rewrite IH. destruct (nth_error (c :: t) (index_of s x)); cbn; [|reflexivity].
    destruct (rmapM (key_of (c :: t) s) l); reflexivity. }
  rewrite H. destruct (rmapM (key_of (c :: t) s) s); cbn; [|reflexivity]. rewrite ksort_flip. f_equal.
  unfold ps_flip. rewrite !map_map. reflexivity.
Qed.
Lemma image_compose s p q b c n : is_perm n p -> is_perm n q -> length s = n -> (0 < n)%nat -> different s -> sound s -> Forall plain s ->
  rbind (image (q, c) s) (image (p, b)) = image (compose p q, xorb b c) s.
Proof.
  intros P Q L N D S Pl. unfold image. cbn [fst snd].
  destruct (image_perm s q n Q L N D) as (s1 & E1 & L1 & G1).
  pose proof (image_str_compose s p q n P Q L N D) as C. rewrite E1 in *. cbn [rbind rmap] in *.
  assert (R := image_rearranges _ _ _ E1).
  destruct c.
  - rewrite image_flip, C. destruct (image_str (compose p q) s) as [s2|] eqn:E2; cbn; [|reflexivity]. destruct b; cbn; [|reflexivity].
    f_equal. apply image_rearranges in E2. apply ps_flip_twice.
    + apply Forall_forall. intros x I. apply (proj1 (Forall_forall _ _) S). apply (Permutation_in _ E2 I).
    + apply Forall_forall. intros x I. apply (proj1 (Forall_forall _ _) Pl). apply (Permutation_in _ E2 I).
  - rewrite C. rewrite xorb_false_r. reflexivity.
Qed.
End Image.

(* ---- inverse ---- *)
Lemma list_set_spec {A} (l : list A) k v l' : list_set l k v = Ok l' ->
  length l' = length l /\ (k < length l)%nat /\ forall q, nth_error l' q = if (q =? k)%nat then Some v else nth_error l q.
Proof.
  revert k l'. induction l as [|x l IH]; intros [|k] l'; cbn; try discriminate.
  - intros [= <-]. cbn. split; [reflexivity|]. split; [lia|]. intros [|q]; reflexivity.
  - destruct (list_set l k v) as [t|] eqn:E; [|discriminate]. cbn. intros [= <-]. apply IH in E as (L & H & G). cbn. split; [lia|]. split; [lia|].
    intros [|q]; [reflexivity|]. cbn. apply G.
Qed.
Lemma list_set_ok {A} (l : list A) k v : (k < length l)%nat -> exists l', list_set l k v = Ok l'.
Proof.
  revert k. induction l as [|x l IH]; intros [|k]; cbn; intros H; try lia; [eexists; reflexivity|].
  destruct (IH k) as (t & E); [lia|]. rewrite E. eexists; reflexivity.
Qed.
Lemma inverse_loop_spec perm : forall acc i, NoDup perm -> (forall x, In x perm -> 1 <= x <= Z.of_nat (length acc)) ->
  exists acc', inverse_loop acc i perm = Ok acc' /\ length acc' = length acc /\
    (forall m x, nth_error perm m = Some x -> nth_error acc' (Z.to_nat (x - 1)) = Some (i + Z.of_nat m + 1)) /\
    (forall q, ~ In (Z.of_nat q + 1) perm -> nth_error acc' q = nth_error acc q).
Proof.
  induction perm as [|c t IH]; intros acc i ND R; cbn [inverse_loop].
  - exists acc. split; [reflexivity|]. split; [reflexivity|]. split; [intros [|m] x; discriminate|reflexivity].
  - apply NoDup_cons_iff in ND as [NI ND]. assert (Rc := R c (or_introl eq_refl)).
    destruct (Z.eqb_spec c 0); [lia|]. destruct (list_set_ok acc (Z.to_nat (c - 1)) (i + 1)) as (acc1 & E1); [lia|]. rewrite E1. cbn [rbind].
    apply list_set_spec in E1 as (L1 & _ & G1).
    destruct (IH acc1 (i + 1) ND) as (acc' & E & L & H1 & H2); [intros x I; rewrite L1; apply R; right; assumption|].
    exists acc'. split; [assumption|]. split; [lia|]. split.
    + intros [|m] x Hx.
      * cbn in Hx. injection Hx as <-. rewrite H2; [|replace (Z.of_nat (Z.to_nat (c - 1)) + 1) with c by lia; assumption].
        rewrite G1, Nat.eqb_refl. f_equal. lia.
      * cbn in Hx. rewrite (H1 m x Hx). f_equal. lia.
    + intros q Nq. rewrite H2 by (intros I; apply Nq; right; assumption). rewrite G1.
      destruct (Nat.eqb_spec q (Z.to_nat (c - 1))); [|reflexivity]. exfalso. apply Nq. left. lia.
Qed.
Lemma inverse_spec n perm : (n <= 9)%nat -> is_perm n perm ->
  exists ip, inverse perm = Ok ip /\ is_perm n ip /\ forall k, papp ip (papp perm k) = k.
Proof.
  intros N P. pose proof (is_perm_length n perm P) as L.
  assert (ND : NoDup perm) by (apply (Permutation_NoDup (Permutation_sym P)), upto_NoDup).
  destruct (inverse_loop_spec perm (map (fun _ => 0) perm) 0 ND) as (ip & E & Li & H & _).
  { intros x I. rewrite map_length, L. apply upto_In, (Permutation_in _ P I). }
  rewrite map_length in Li.
  assert (A : forall k, 1 <= k <= Z.of_nat n -> nth_error ip (Z.to_nat (papp perm k - 1)) = Some k).
  { intros k R. assert (Nk := papp_in perm k ltac:(lia)). rewrite (H _ _ Nk). f_equal. lia. }
  assert (Pi : is_perm n ip).
  { unfold is_perm. symmetry. apply NoDup_Permutation_bis; [apply upto_NoDup|rewrite upto_length; lia|].
    intros k I. apply upto_In in I. apply (nth_error_In _ _ (A k I)). }
  exists ip. split; [|split; [assumption|]].
  - unfold inverse. rewrite E. cbn [rmap]. f_equal. apply (join_perm n); assumption.
  - intros k. destruct (Z_le_dec 1 k), (Z_le_dec k (Z.of_nat n)); try (rewrite (papp_out perm), papp_out by lia; reflexivity).
    pose proof (papp_range n perm k P ltac:(lia)). assert (Q := papp_in ip (papp perm k) ltac:(lia)). rewrite A in Q by lia. congruence.
Qed.
Lemma papp_inverse_r n perm ip k : is_perm n perm -> is_perm n ip -> (forall j, papp ip (papp perm j) = j) -> papp perm (papp ip k) = k.
Proof. intros P Q H. apply (papp_inj n ip _ _ Q). rewrite H. reflexivity. Qed.
Lemma inverse_involution n perm : (n <= 9)%nat -> is_perm n perm -> rbind (inverse perm) inverse = Ok perm.
Proof.
  intros N P. destruct (inverse_spec n perm N P) as (ip & E & Pi & H). rewrite E. cbn [rbind].
  destruct (inverse_spec n ip N Pi) as (iip & E' & Pii & H'). rewrite E'. f_equal.
  apply (papp_ext n); [apply is_perm_length; assumption..|]. intros k. rewrite <- (H k) at 1. apply H'.
Qed.
Lemma inverse_compose n perm : (n <= 9)%nat -> is_perm n perm ->
  exists ip, inverse perm = Ok ip /\ is_perm n ip /\ compose ip perm = upto n /\ compose perm ip = upto n.
Proof.
  intros N P. destruct (inverse_spec n perm N P) as (ip & E & Pi & H). exists ip. split; [assumption|]. split; [assumption|].
  split; (apply (papp_ext n); [apply is_perm_length, compose_perm; assumption|apply upto_length|]); intros k; rewrite papp_upto, (papp_compose n) by assumption.
  - apply H.
  - apply (papp_inverse_r n perm ip k P Pi H).
Qed.
Lemma image_inverse {K : Fld} (s : ps K) perm b n : (n <= 9)%nat -> is_perm n perm -> length s = n -> (0 < n)%nat -> different s -> sound s -> Forall plain s ->
  rbind (inverse_rule (perm, b)) (fun r => rbind (image (perm, b) s) (image r)) = Ok s.
Proof.
  intros N P L N0 D S Pl. destruct (inverse_compose n perm N P) as (ip & E & Pi & C & _). unfold inverse_rule. cbn [fst snd]. rewrite E. cbn [rmap rbind].
  change (rbind (image (perm, b) s) (image (ip, b)) = Ok s). etransitivity; [apply (image_compose s ip perm b b n); assumption|]. rewrite C, xorb_nilpotent.
  rewrite <- (join_perm n (upto n)) by (try assumption; apply Permutation_refl). apply (image_id s n); [lia|assumption|assumption].
Qed.

(* ---- itertools.permutations ---- *)
Section PermsThm.
Context {A : Type}.
Lemma picks_In (l : list A) y : In y (picks l) <-> exists l1 l2, l = l1 ++ fst y :: l2 /\ snd y = l1 ++ l2.
Proof.
  revert y. induction l as [|x t IH]; intros y; cbn.
  - split; [intros []|]. intros ([|] & l2 & E & _); discriminate.
  - rewrite in_map_iff. split.
    + intros [<-|(z & <- & I)]; [exists [], t; split; reflexivity|]. apply IH in I as (l1 & l2 & E & E'). exists (x :: l1), l2. cbn. rewrite E, E'. split; reflexivity.
    + intros ([|x' l1] & l2 & E & E'); cbn in *; injection E as -> E.
      * left. destruct y; cbn in *. subst. reflexivity.
      * right. exists (fst y, l1 ++ l2). split; [destruct y; cbn in *; subst; reflexivity|]. apply IH. exists l1, l2. split; [assumption|reflexivity].
Qed.
Lemma picks_fst (l : list A) : map fst (picks l) = l.
Proof. induction l as [|x t IH]; cbn; [reflexivity|]. f_equal. rewrite map_map. cbn. exact IH. Qed.
Lemma perms_n_In n : forall (l : list A), length l = n -> forall t, In t (perms_n n l) <-> Permutation t l.
Proof.
  induction n as [|n IH]; intros l L t; cbn [perms_n].
  - destruct l; [|discriminate]. cbn. split; [intros [<-|[]]; constructor|]. intros H. left. symmetry. apply Permutation_nil. symmetry; exact H.
  - rewrite in_flat_map. split.
    + intros (y & Hy & Ht). apply picks_In in Hy as (l1 & l2 & E & E'). apply in_map_iff in Ht as (t' & <- & Ht').
      apply IH in Ht'; [|rewrite E'; rewrite E, app_length in L; cbn in L; rewrite app_length; lia].
      rewrite E. transitivity (fst y :: l1 ++ l2); [constructor; rewrite <- E'; assumption|apply Permutation_middle].
    + intros P. destruct t as [|x t]; [apply Permutation_nil in P; subst; discriminate|].
      assert (I : In x l) by (apply (Permutation_in x P); left; reflexivity). apply in_split in I as (l1 & l2 & E).
      exists (x, l1 ++ l2). split; [apply picks_In; exists l1, l2; split; [exact E|reflexivity]|]. cbn [fst snd]. apply in_map. apply IH.
      * rewrite E, app_length in L. cbn in L. rewrite app_length. lia.
      * rewrite E in P. apply (Permutation_cons_app_inv _ _ P).
Qed.
Lemma NoDup_flat {B C} (f : B -> list C) (l : list B) : (forall x, In x l -> NoDup (f x)) ->
  (forall l1 x l2 y l3 z, l = l1 ++ x :: l2 ++ y :: l3 -> In z (f x) -> In z (f y) -> False) -> NoDup (flat_map f l).
Proof.
  induction l as [|x l IH]; cbn; intros H1 H2; [constructor|].
  assert (D : forall a b : list C, NoDup a -> NoDup b -> (forall z, In z a -> In z b -> False) -> NoDup (a ++ b)).
  { induction a as [|u a IHa]; cbn; intros b Na Nb Dj; [assumption|]. apply NoDup_cons_iff in Na as [Nu Na]. constructor.
    - intros I. apply in_app_or in I as [I|I]; [contradiction|]. apply (Dj u); [left; reflexivity|assumption].
    - apply IHa; auto. intros z Iz Iz'. apply (Dj z); [right; assumption|assumption]. }
  apply D; [apply H1; left; reflexivity| |].
  - apply IH; [intros y I; apply H1; right; assumption|]. intros l1 y l2 z l3 w E. apply (H2 (x :: l1) y l2 z l3 w). rewrite E. reflexivity.
  - intros z I I'. apply in_flat_map in I' as (y & Iy & I'). apply in_split in Iy as (l2 & l3 & E). apply (H2 [] x l2 y l3 z); [rewrite E; reflexivity|assumption..].
Qed.
Lemma perms_n_NoDup n : forall (l : list A), length l = n -> NoDup l -> NoDup (perms_n n l).
Proof.
  induction n as [|n IH]; intros l L D; cbn [perms_n]; [repeat constructor; intros []|].
  apply NoDup_flat.
  - intros y Hy. apply picks_In in Hy as (l1 & l2 & E & E'). apply FinFun.Injective_map_NoDup; [intros a b Q; congruence|]. apply IH.
    + rewrite E'. rewrite E, app_length in L. cbn in L. rewrite app_length. lia.
    + rewrite E'. rewrite E in D. apply (NoDup_remove_1 _ _ _ D).
  - intros l1 x l2 y l3 z E I I'. apply in_map_iff in I as (t & <- & _). apply in_map_iff in I' as (t' & Q & _). injection Q as Q _.
    assert (N : NoDup (map fst (picks l))) by (rewrite picks_fst; assumption). rewrite E, map_app in N. cbn [map] in N. rewrite map_app in N. cbn [map] in N.
    apply NoDup_remove_2 in N. apply N. apply in_or_app. right. apply in_or_app. right. left. exact Q.
Qed.
Lemma permutations_In (l t : list A) : In t (permutations l) <-> Permutation t l.
Proof. apply perms_n_In. reflexivity. Qed.
Lemma permutations_NoDup (l : list A) : NoDup l -> NoDup (permutations l).
Proof. apply perms_n_NoDup. reflexivity. Qed.
End PermsThm.

Lemma filter_some_In {A B} (f : A -> option B) l y : In y (filter_some f l) <-> exists x, In x l /\ f x = Some y.
Proof.
  induction l as [|x t IH]; cbn; [split; [intros []|intros (x & [] & _)]|]. destruct (f x) as [z|] eqn:E; cbn; rewrite ?IH; split.
  - intros [<-|(u & I & Eu)]; eauto.
  - intros (u & [<-|I] & Eu); [left; congruence|right; eauto].
  - intros (u & I & Eu); eauto.
  - intros (u & [<-|I] & Eu); [congruence|eauto].
Qed.
Lemma filter_some_NoDup {A B} (f : A -> option B) l : (forall x x' y, f x = Some y -> f x' = Some y -> x = x') -> NoDup l -> NoDup (filter_some f l).
Proof.
  intros I. induction 1 as [|x t NI ND IH]; cbn; [constructor|]. destruct (f x) as [z|] eqn:E; [|assumption]. constructor; [|assumption].
  intros Iz. apply filter_some_In in Iz as (u & Iu & Eu). rewrite (I x u z E Eu) in NI. contradiction.
Qed.
Lemma zlist_eqb_ok a b : zlist_eqb a b = true <-> a = b.
Proof. unfold zlist_eqb. destruct (list_eq_dec Z.eq_dec a b); split; congruence. Qed.
Lemma compatible_spec w p q b : compatible w p = Some (q, b) <-> q = p /\ (b = false /\ permuted w p = w \/ b = true /\ permuted w p = map Z.opp w /\ permuted w p <> w).
Proof.
  unfold compatible. destruct (zlist_eqb (permuted w p) w) eqn:E.
  - apply zlist_eqb_ok in E. split; [intros [= <- <-]; auto|]. intros (-> & [(-> & _)|(_ & _ & N)]); [reflexivity|contradiction].
  - assert (N : permuted w p <> w) by (intros H; apply zlist_eqb_ok in H; congruence).
    destruct (zlist_eqb (permuted w p) (map Z.opp w)) eqn:E'.
    + apply zlist_eqb_ok in E'. split; [intros [= <- <-]; auto|]. intros (-> & [(_ & H)|(-> & _)]); [contradiction|reflexivity].
    + split; [discriminate|]. intros (_ & [(_ & H)|(_ & H & _)]); [contradiction|]. apply zlist_eqb_ok in H. congruence.
Qed.
(* the symmetries before they are turned into strings *)
Lemma symmetries_list w : let n := length w in
  exists L, phase_weights_compatible_symmetries w = map (fun r => (join (fst r), snd r)) L /\ NoDup L /\
    (forall p b, In (p, b) L <-> is_perm n p /\ (b = false /\ permuted w p = w \/ b = true /\ permuted w p = map Z.opp w /\ permuted w p <> w)).
Proof.
  intros n. exists (filter_some (compatible w) (permutations (upto (length w)))). split; [reflexivity|]. split.
  - apply filter_some_NoDup; [|apply permutations_NoDup, upto_NoDup]. intros x x' [q b] E E'. apply compatible_spec in E, E'. destruct E as (-> & _), E' as (-> & _). reflexivity.
  - intros p b. rewrite filter_some_In. split.
    + intros (x & I & E). apply permutations_In in I. apply compatible_spec in E as (-> & H). auto.
    + intros (P & H). exists p. split; [apply permutations_In, P|]. apply compatible_spec. auto.
Qed.
Lemma map_NoDup_in {A B} (f : A -> B) l : (forall x y, In x l -> In y l -> f x = f y -> x = y) -> NoDup l -> NoDup (map f l).
Proof.
  intros I. induction 1 as [|x t NI ND IH]; cbn; constructor.
  - intros H. apply in_map_iff in H as (y & E & Iy). rewrite (I y x) in Iy; [contradiction|right; assumption|left; reflexivity|assumption].
  - apply IH. intros y z Iy Iz. apply I; right; assumption.
Qed.
Lemma NoDup_map_inv_in {A B} (f : A -> B) l a b : NoDup (map f l) -> In a l -> In b l -> f a = f b -> a = b.
Proof.
  induction l as [|x t IH]; cbn; [intros _ []|]. intros ND Ia Ib E. apply NoDup_cons_iff in ND as [NI ND].
  destruct Ia as [->|Ia], Ib as [->|Ib]; [reflexivity| | |apply IH; assumption].
  - exfalso. apply NI. rewrite E. apply in_map, Ib.
  - exfalso. apply NI. rewrite <- E. apply in_map, Ia.
Qed.
Lemma symmetries_spec w : (length w <= 9)%nat ->
  NoDup (phase_weights_compatible_symmetries w) /\
  forall p b, In (p, b) (phase_weights_compatible_symmetries w) <->
    is_perm (length w) p /\ (b = false /\ permuted w p = w \/ b = true /\ permuted w p = map Z.opp w /\ permuted w p <> w).
Proof.
  intros N. destruct (symmetries_list w) as (L & E & ND & H). rewrite E.
  assert (EL : map (fun r : list Z * bool => (join (fst r), snd r)) L = L).
  { rewrite <- (map_id L) at 2. apply map_ext_in. intros [p b] I. cbn [fst snd]. apply H in I as [P _]. rewrite (join_perm (length w)) by assumption. reflexivity. }
  rewrite EL. split; assumption.
Qed.
Lemma permuted_zero n p : is_perm n p -> permuted (repeat 0 n) p = repeat 0 n.
Proof.
  intros P. pose proof (is_perm_length n p P) as L. unfold permuted. transitivity (repeat 0 (length p)); [clear|rewrite L; reflexivity].
  induction p as [|x p IH]; [reflexivity|]. cbn [map length repeat]. f_equal; [|exact IH].
  generalize (Z.to_nat (x - 1)). clear. induction n as [|n IHn]; intros [|k]; cbn; auto.
Qed.
Lemma all_symmetries_spec n : (n <= 9)%nat ->
  NoDup (all_symmetries n) /\ forall p b, In (p, b) (all_symmetries n) <-> is_perm n p /\ b = false.
Proof.
  intros N. unfold all_symmetries. destruct (symmetries_spec (repeat 0 n)) as [ND H]; [rewrite repeat_length; assumption|].
  split; [assumption|]. intros p b. rewrite H, repeat_length. split.
  - intros (P & C). split; [assumption|]. destruct C as [[-> _]|(_ & _ & C)]; [reflexivity|]. exfalso. apply C, permuted_zero, P.
  - intros (P & ->). split; [assumption|]. left. split; [reflexivity|apply permuted_zero, P].
Qed.
Lemma all_symmetries_never_true n p b : In (p, b) (all_symmetries n) -> b = false.
Proof.
  unfold all_symmetries. destruct (symmetries_list (repeat 0 n)) as (L & E & _ & H). rewrite E. intros I. apply in_map_iff in I as ([q c] & Q & I). cbn in Q. injection Q as _ <-.
  apply H in I as (P & C). rewrite repeat_length in P. destruct C as [[-> _]|(_ & _ & C)]; [reflexivity|]. exfalso. apply C, permuted_zero, P.
Qed.
Lemma all_symmetries_collision n p q : is_perm n p -> is_perm n q -> p <> q -> join p = join q -> ~ NoDup (all_symmetries n).
Proof.
  intros P Q N E ND. unfold all_symmetries in ND. destruct (symmetries_list (repeat 0 n)) as (L & EL & _ & H). rewrite EL in ND. rewrite repeat_length in H.
  assert (Ip : In (p, false) L) by (apply H; split; [assumption|left; split; [reflexivity|apply permuted_zero, P]]).
  assert (Iq : In (q, false) L) by (apply H; split; [assumption|left; split; [reflexivity|apply permuted_zero, Q]]).
  assert (X := NoDup_map_inv_in _ L _ _ ND Ip Iq). cbn [fst snd] in X. rewrite E in X. specialize (X eq_refl). congruence.
Qed.

(* ---- C15 ---- *)
Section Relabel.
Context {K : Fld}.
Implicit Types (s : ps K).
Lemma relabel_image s s' perm n e : (n <= 9)%nat -> is_perm n perm -> length s = n -> (0 < n)%nat -> different s -> labelled e ->
  image (perm, false) s = Ok s' -> compute s' (relabel (papp perm) e) = compute s e.
Proof.
  intros N P L N0 D La E. unfold image in E. cbn [fst snd] in E. destruct (image_perm s perm n P L N0 D) as (t & Et & _ & G).
  rewrite Et in E. cbn in E. injection E as <-. apply relabel_compute; [exact G|exact La|].
  intros k. destruct (Z_le_dec 1 k), (Z_le_dec k (Z.of_nat n)); try (rewrite papp_out by (rewrite (is_perm_length n perm P); lia); reflexivity).
  pose proof (papp_range n perm k P ltac:(lia)). lia.
Qed.
Lemma emap_rev f es : map (emap f) (rev es) = rev (map (emap f) es). Proof. apply map_rev. Qed.
Lemma flip_relabel f e : flip_str (relabel f e) = relabel f (flip_str e).
Proof. destruct e; cbn; try reflexivity. rewrite map_rev. reflexivity. Qed.
Lemma flippable_relabel f e : flippable e -> flippable (relabel f e).
Proof. destruct e; cbn; auto. rewrite map_length. intros (A & B & C). split; [assumption|]. split; [assumption|]. destruct es; [contradiction|discriminate]. Qed.
Lemma labelled_flip e : labelled e -> labelled (flip_str e).
Proof. destruct e; cbn; auto. Qed.
Lemma relabel_image_flip s s' perm n e x : (n <= 9)%nat -> is_perm n perm -> length s = n -> (0 < n)%nat -> different s -> sound s -> Forall plain s ->
  labelled e -> flippable e -> image (perm, true) s = Ok s' ->
  (scalar (compute s' (relabel (papp perm) e)) = Ok x <-> scalar (compute s (flip_str e)) = Ok x).
Proof.
  intros N P L N0 D S Pl La F E. unfold image in E. cbn [fst snd] in E. destruct (image_perm s perm n P L N0 D) as (t & Et & _ & G).
  rewrite Et in E. cbn in E. injection E as <-. pose proof (image_rearranges _ _ _ Et) as R.
  assert (St : sound t) by (apply Forall_forall; intros y I; apply (proj1 (Forall_forall _ _) S), (Permutation_in _ R I)).
  assert (Pt : Forall plain t) by (apply Forall_forall; intros y I; apply (proj1 (Forall_forall _ _) Pl), (Permutation_in _ R I)).
  rewrite (flip_compute t (relabel (papp perm) e) x St Pt (flippable_relabel _ _ F)). rewrite flip_relabel.
  rewrite (relabel_image s t perm n (flip_str e)); try assumption; [reflexivity|apply labelled_flip, La|].
  unfold image. cbn [fst snd]. rewrite Et. reflexivity.
Qed.
End Relabel.

(* a decision procedure, for the examples *)
Fixpoint distinctb {K : Fld} (s : ps K) : bool :=
  match s with [] => true | p :: t => negb (existsb (p_eqb p) t) && distinctb t end.
Lemma distinctb_ok {K : Fld} (s : ps K) : distinctb s = true -> different s.
Proof.
  unfold different. induction s as [|p t IH]; intros H; [constructor|]. cbn [distinctb] in H. apply andb_prop in H as [H1 H2].
  cbn [map]. constructor; [|apply IH, H2]. intros I. apply in_map_iff in I as (q & E & I). apply negb_true_iff in H1.
  assert (X : existsb (p_eqb p) t = true); [|congruence]. apply existsb_exists. exists q. split; [assumption|]. apply p_eqb_spec. symmetry; assumption.
Qed.
Lemma from_spinors_plain {K : Fld} (l : list (v2 K * v2 K)) : Forall plain (from_spinors l).
Proof. apply Forall_forall. intros p Hp. apply in_map_iff in Hp as (x & <- & _). unfold new_spinors. rewrite new_spinors_eq. split; [reflexivity|]. right. split; discriminate. Qed.
Lemma bool_neq {A} (g : A -> bool) x y : xorb (g x) (g y) = true -> x <> y.
Proof. intros H ->. rewrite xorb_nilpotent in H. discriminate. Qed.
