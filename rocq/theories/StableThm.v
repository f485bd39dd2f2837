(* The image by any string of digits is a stable sort. *)
From Coq Require Import List ZArith Bool Lia Sorted Permutation.
From Verif Require Import Base Fld Particle Index Phase Symm SymmSpec SymmThm StableSpec.
Import ListNotations.
Open Scope Z_scope.
Lemma kinsert_with {A} c (x : Z * A) l : StronglySorted kle l -> with_key c (kinsert x l) = with_key c (x :: l).
Proof.
  unfold with_key. induction 1 as [|y t S IH F]; [reflexivity|]. cbn [kinsert]. destruct (Z.leb_spec (fst x) (fst y)) as [L|L]; [reflexivity|].
  cbn [filter] in *. destruct (Z.eqb_spec (fst y) c) as [E|N].
  - destruct (Z.eqb_spec (fst x) c) as [E'|N']; [lia|]. cbn [map]. f_equal. rewrite IH. reflexivity.
  - rewrite IH. reflexivity.
Qed.
Lemma ksort_with {A} c (l : list (Z * A)) : with_key c (ksort l) = with_key c l.
Proof.
  induction l as [|x l IH]; [reflexivity|]. change (ksort (x :: l)) with (kinsert x (ksort l)). rewrite kinsert_with by apply ksort_sorted. unfold with_key in *. cbn [filter]. destruct (fst x =? c); cbn [map]; rewrite IH; reflexivity.
Qed.
Lemma combine_split_eq {A B} (l : list (A * B)) : combine (map fst l) (map snd l) = l.
Proof. induction l as [|[a b] l IH]; cbn; [reflexivity|]. rewrite IH. reflexivity. Qed.
Theorem image_stable {K : Fld} (perm : list Z) (s : ps K) : perm <> [] -> (length s <= length perm)%nat -> different s ->
  exists s' keys, image (perm, false) s = Ok s' /\ length keys = length s' /\ length s' = length s /\ ordered keys /\ forall c, with_key c (combine keys s') = with_key c (combine perm s).
Proof.
  intros N L D. exists (map snd (ksort (combine perm s))), (map fst (ksort (combine perm s))). unfold image. cbn [fst snd]. rewrite (image_sorts perm s N L D). cbn [rmap].
  split; [reflexivity|]. rewrite !map_length. split; [reflexivity|]. split; [rewrite (Permutation_length (ksort_perm _)), combine_length; lia|]. split.
  - pose proof (ksort_sorted (combine perm s)) as S. induction S as [|y t S IH F]; [intros i j a b _ E; destruct i; discriminate|]. cbn [map]. intros i j a b I Ea Eb. destruct i as [|i], j as [|j]; try lia; cbn in Ea, Eb.
    + injection Ea as <-. rewrite nth_error_map in Eb. destruct (nth_error t j) as [z|] eqn:Ej; [|discriminate]. injection Eb as <-. apply nth_error_In in Ej. exact (proj1 (Forall_forall _ _) F z Ej).
    + eapply (IH i j); eauto. lia.
  - intros c. rewrite combine_split_eq. apply ksort_with.
Qed.
(* a string with fewer characters than legs *)
Lemma keys_short {K : Fld} perm (s : ps K) l : (exists x, In x l /\ key_of perm s x = Err IndexError) -> rmapM (key_of perm s) l = Err IndexError.
Proof.
  intros (x & I & E). induction l as [|y l IH]; [destruct I|]. cbn [rmapM]. destruct (key_of perm s y) as [z|e] eqn:Ey.
  - destruct I as [->|I]; [congruence|]. rewrite (IH I). reflexivity.
  - unfold key_of in Ey. destruct (nth_error perm (index_of s y)); [discriminate|]. cbn [rbind]. congruence.
Qed.
Theorem short_string {K : Fld} (perm : list Z) (s : ps K) : perm <> [] -> (length perm < length s)%nat -> different s -> image (perm, false) s = Err IndexError.
Proof.
  intros N L D. unfold image. cbn [fst snd]. unfold image_str. destruct perm as [|c t]; [contradiction|].
  change (rmap (fun s' => s') (rbind (rmapM (key_of (c :: t) s) s) (fun keyed => Ok (map snd (ksort keyed)))) = Err IndexError). rewrite keys_short; [reflexivity|].
  destruct (nth_error s (length (c :: t))) as [x|] eqn:E; [|apply nth_error_None in E; lia]. exists x. split; [eapply nth_error_In, E|].
  apply nth_error_split in E as (pre & suf & -> & Lp). unfold key_of. rewrite index_of_app.
  - rewrite Lp. rewrite (proj2 (nth_error_None (c :: t) (length (c :: t))) (le_n _)). reflexivity.
  - unfold different in D. rewrite map_app in D. cbn [map] in D. apply NoDup_remove_2 in D. intros I. apply D. apply in_or_app. left. exact I.
Qed.
(* ---- inverse of any string of digits ---- *)
Lemma list_set_nth {A} (l : list A) : forall k v, (k < length l)%nat -> exists l', list_set l k v = Ok l' /\ length l' = length l /\ forall d q, nth q l' d = if (k =? q)%nat then v else nth q l d.
Proof.
  induction l as [|x l IH]; intros k v L; [cbn in L; lia|]. destruct k as [|k].
  - eexists. split; [reflexivity|]. split; [reflexivity|]. intros d [|q]; reflexivity.
  - destruct (IH k v) as (l' & E & Ll & H); [cbn in L; lia|]. cbn. rewrite E. eexists. split; [reflexivity|]. split; [cbn; lia|]. intros d [|q]; [reflexivity|]. cbn. apply H.
Qed.
Lemma list_set_out {A} (l : list A) : forall k v, (length l <= k)%nat -> list_set l k v = Err IndexError.
Proof. induction l as [|x l IH]; intros [|k] v L; cbn in *; try lia; try reflexivity. rewrite IH by lia. reflexivity. Qed.
Lemma loop_any perm : forall acc i, (forall c, In c perm -> (place (length acc) c < length acc)%nat) ->
  exists l, inverse_loop acc i perm = Ok l /\ length l = length acc /\ forall k, nth k l 0 = match last_pos (length acc) perm k with Some j => i + Z.of_nat j + 1 | None => nth k acc 0 end.
Proof.
  induction perm as [|c t IH]; intros acc i R; [exists acc; repeat split|]. cbn [inverse_loop]. cbv zeta. fold (place (length acc) c).
  destruct (list_set_nth acc (place (length acc) c) (i + 1) (R c (or_introl eq_refl))) as (acc' & E & L & H). rewrite E. cbn [rbind].
  destruct (IH acc' (i + 1)) as (l & El & Ll & Hl); [intros d I; rewrite L; apply R; right; exact I|]. exists l. split; [exact El|]. split; [lia|]. intros k. rewrite Hl, L. cbn [last_pos].
  destruct (last_pos (length acc) t k) as [j|]; [lia|]. rewrite H. destruct (place (length acc) c =? k)%nat; [lia|reflexivity].
Qed.
Theorem inverse_any perm : (forall c, In c perm -> 0 <= c <= Z.of_nat (length perm)) ->
  exists l, inverse perm = Ok (join l) /\ length l = length perm /\ forall k, nth k l 0 = match last_pos (length perm) perm k with Some j => Z.of_nat j + 1 | None => 0 end.
Proof.
  intros R. unfold inverse. destruct (loop_any perm (map (fun _ => 0) perm) 0) as (l & E & L & H).
  - intros c I. rewrite map_length. unfold place. pose proof (R c I). destruct perm; [destruct I|]. cbn [length] in *. destruct (Z.eqb_spec c 0); lia.
  - rewrite E. exists l. rewrite map_length in *. split; [reflexivity|]. split; [exact L|]. intros k. rewrite H. destruct (last_pos (length perm) perm k) as [j|]; [lia|]. clear. revert k. induction perm as [|x t IH]; intros [|k]; cbn; try reflexivity. apply IH.
Qed.
Lemma loop_out perm : forall acc i, (exists c, In c perm /\ Z.of_nat (length acc) < c) -> inverse_loop acc i perm = Err IndexError.
Proof.
  induction perm as [|c t IH]; intros acc i (d & I & L); [destruct I|]. cbn [inverse_loop]. cbv zeta. fold (place (length acc) c).
  destruct (Nat.lt_ge_cases (place (length acc) c) (length acc)) as [P|P].
  - destruct (list_set_nth acc _ (i + 1) P) as (acc' & E & L' & _). rewrite E. cbn [rbind]. apply IH. destruct I as [->|I]; [exfalso; unfold place in P; destruct (Z.eqb_spec d 0); lia|]. exists d. rewrite L'. auto.
  - rewrite list_set_out by exact P. reflexivity.
Qed.
Theorem inverse_out perm : (exists c, In c perm /\ Z.of_nat (length perm) < c) -> inverse perm = Err IndexError.
Proof. intros H. unfold inverse. rewrite loop_out; [reflexivity|]. rewrite map_length. exact H. Qed.
