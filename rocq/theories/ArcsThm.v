From Coq Require Import List ZArith Bool Lia Permutation.
From Verif Require Import Base Index IndexThm Arcs ArcsSpec.
Import ListNotations.
Open Scope Z_scope.

Section A.
Variable n : nat.
Variable i : Z.
Hypothesis Hn : (0 < n)%nat.
Let N := Z.of_nat n.
Definition pos (o : nat) : Z := (i - 1 + Z.of_nat o) mod Z.of_nat n + 1.
Definition seg (lo hi : nat) : list Z := map pos (seq lo (hi - lo)).

Lemma pos_range o : 1 <= pos o <= N.
Proof. unfold pos. pose proof (Z.mod_pos_bound (i - 1 + Z.of_nat o) (Z.of_nat n)). fold N. fold N in H. lia. Qed.
Lemma pos_next o : next_leg N (pos o) = pos (S o).
Proof.
  unfold next_leg, pos. fold N.
  assert (NP : 0 < N) by (unfold N; lia).
  replace (i - 1 + Z.of_nat (S o)) with (i - 1 + Z.of_nat o + 1) by lia.
  set (x := i - 1 + Z.of_nat o). pose proof (Z.mod_pos_bound x N NP) as Bx.
  rewrite <- (Z.add_mod_idemp_l x 1 N) by lia.
  destruct (Z.eq_dec (x mod N) (N - 1)) as [E|E].
  - rewrite E. replace (N - 1 + 1) with (1 * N) by lia. rewrite Z_mod_mult.
    replace (1 * N + 1) with (1 + 1 * N) by lia. rewrite Z_mod_plus_full.
    destruct (Z.eq_dec N 1) as [->|]; [reflexivity|]. rewrite Z.mod_small by lia. reflexivity.
  - destruct (Z.eq_dec (x mod N + 1) (N - 1)) as [E2|E2].
    + rewrite E2. replace (N - 1 + 1) with (1 * N) by lia. rewrite Z_mod_mult. rewrite Z.eqb_refl.
      rewrite Z.mod_small; lia.
    + rewrite (Z.mod_small (x mod N + 1 + 1)) by lia. rewrite (Z.mod_small (x mod N + 1)) by lia.
      destruct (Z.eqb_spec (x mod N + 1 + 1) 0); lia.
Qed.
Lemma pos_inj o o' : (o < n)%nat -> (o' < n)%nat -> pos o = pos o' -> o = o'.
Proof.
  intros L L' E. unfold pos in E. assert (E' : (i - 1 + Z.of_nat o) mod N = (i - 1 + Z.of_nat o') mod N) by (unfold N; lia).
  assert (NP : 0 < N) by (unfold N; lia).
  assert ((Z.of_nat o - Z.of_nat o') mod N = 0).
  { replace (Z.of_nat o - Z.of_nat o') with ((i - 1 + Z.of_nat o) - (i - 1 + Z.of_nat o')) by lia.
    rewrite Zminus_mod, E', Z.sub_diag. apply Z.mod_0_l. lia. }
  apply Z.mod_divide in H; [|lia]. destruct H as (q & H).
  assert (q = 0) by nia. subst q. lia.
Qed.
Lemma pos_wrap : pos n = pos 0.
Proof. unfold pos. fold N. replace (i - 1 + N) with (i - 1 + 1 * N) by lia. rewrite Z_mod_plus_full. f_equal. f_equal. cbn. lia. Qed.
Lemma pos_0 : 1 <= i <= N -> pos 0 = i.
Proof. intros R. unfold pos. fold N. cbn [Z.of_nat]. rewrite Z.mod_small; lia. Qed.
Lemma pos_off x : 1 <= x <= N -> pos (Z.to_nat ((x - i) mod N)) = x.
Proof.
  intros R. unfold pos. fold N. assert (NP : 0 < N) by lia. pose proof (Z.mod_pos_bound (x - i) N NP).
  rewrite Z2Nat.id by lia. rewrite Z.add_mod_idemp_r by lia. replace (i - 1 + (x - i)) with (x - 1) by lia.
  rewrite Z.mod_small; lia.
Qed.
Lemma seg_In o lo hi : (o < n)%nat -> (hi <= n)%nat -> (In (pos o) (seg lo hi) <-> (lo <= o < hi)%nat).
Proof.
  intros L H. unfold seg. rewrite in_map_iff. split.
  - intros (o' & E & I). apply in_seq in I. apply pos_inj in E; [|lia|lia]. subst. lia.
  - intros R. exists o. split; [reflexivity|]. apply in_seq. lia.
Qed.
Lemma seg_snoc lo hi : (lo <= hi)%nat -> seg lo (S hi) = seg lo hi ++ [pos hi].
Proof. intros. unfold seg. replace (S hi - lo)%nat with (S (hi - lo)) by lia. rewrite seq_S, map_app. cbn. replace (lo + (hi - lo))%nat with hi by lia. reflexivity. Qed.
Lemma seg_one lo : seg lo (S lo) = [pos lo].
Proof. unfold seg. replace (S lo - lo)%nat with 1%nat by lia. reflexivity. Qed.
Lemma zmem_In x l : zmem x l = true <-> In x l.
Proof. unfold zmem. rewrite existsb_exists. split; [intros (y & I & E); apply Z.eqb_eq in E; subst; assumption|intros I; exists x; split; [assumption|apply Z.eqb_refl]]. Qed.
Lemma zmem_out x l : ~ In x l -> zmem x l = false.
Proof. intros NI. destruct (zmem x l) eqn:E; [|reflexivity]. apply zmem_In in E. contradiction. Qed.
Lemma grow_seg lo hi l1 l2 : forall d fuel m, (lo < m)%nat -> (hi - m)%nat = d -> (m <= hi)%nat -> (d < fuel)%nat ->
  (forall o, (m <= o < hi)%nat -> ~ In (pos o) l1 /\ ~ In (pos o) l2) -> (In (pos hi) l1 \/ In (pos hi) l2) ->
  grow fuel N (seg lo m) l1 l2 = Ok (seg lo hi).
Proof.
  induction d; intros fuel m LM D MH F Out Hit; (destruct fuel as [|fuel]; [lia|]); cbn [grow].
  - assert (m = hi) by lia. subst m.
    assert (EL : last (seg lo hi) 0 = pos (hi - 1)). { replace hi with (S (hi - 1)) at 1 by lia. rewrite seg_snoc, last_last by lia. reflexivity. }
    rewrite EL, pos_next. replace (S (hi - 1)) with hi by lia.
    assert (negb (zmem (pos hi) l1) && negb (zmem (pos hi) l2) = false) as ->; [|reflexivity].
    destruct Hit as [H|H]; apply zmem_In in H; rewrite H; [reflexivity|apply andb_false_r].
  - assert (EL : last (seg lo m) 0 = pos (m - 1)). { replace m with (S (m - 1)) at 1 by lia. rewrite seg_snoc, last_last by lia. reflexivity. }
    rewrite EL, pos_next. replace (S (m - 1)) with m by lia.
    destruct (Out m ltac:(lia)) as [O1 O2]. rewrite (zmem_out _ _ O1), (zmem_out _ _ O2). cbn [negb andb].
    rewrite <- seg_snoc by lia. apply IHd; try lia; auto. intros o R. apply Out. lia.
Qed.
Lemma seg_hd lo hi : (lo < hi)%nat -> hd_error (seg lo hi) = Some (pos lo).
Proof. intros. unfold seg. replace (hi - lo)%nat with (S (hi - lo - 1)) by lia. reflexivity. Qed.
Lemma seg_consecutive lo hi : consecutive N (seg lo hi).
Proof.
  intros l1 x y l2 E.
  assert (EX : nth_error (seg lo hi) (length l1) = Some x) by (rewrite E, nth_error_app2, Nat.sub_diag by lia; reflexivity).
  assert (EY : nth_error (seg lo hi) (S (length l1)) = Some y).
  { rewrite E. rewrite nth_error_app2 by lia. replace (S (length l1) - length l1)%nat with 1%nat by lia. reflexivity. }
  unfold seg in EX, EY. 
  assert (LL : (S (length l1) < hi - lo)%nat).
  { assert (nth_error (map pos (seq lo (hi - lo))) (S (length l1)) <> None) by congruence. apply nth_error_Some in H. rewrite map_length, seq_length in H. assumption. }
  rewrite nth_error_map in EX, EY. rewrite (nth_error_nth' _ 0%nat) in EX by (rewrite seq_length; lia).
  rewrite (nth_error_nth' _ 0%nat) in EY by (rewrite seq_length; lia).
  rewrite seq_nth in EX by lia. rewrite seq_nth in EY by lia. cbn [option_map] in EX, EY. injection EX as <-. injection EY as <-.
  replace (lo + S (length l1))%nat with (S (lo + length l1)) by lia. rewrite <- pos_next.
  unfold next_leg. set (x := pos _). assert (R : 1 <= x <= N) by apply pos_range.
  destruct (Z.eq_dec x N) as [EQ|NE].
  - rewrite EQ. rewrite Z_mod_same_full. replace (N + 1) with (1 + 1 * N) by lia. rewrite Z_mod_plus_full.
    destruct (Z.eq_dec N 1) as [->|]; [reflexivity|]. rewrite Z.mod_small by lia. reflexivity.
  - rewrite (Z.mod_small x) by lia. destruct (Z.eq_dec (x + 1) N) as [E1|E1].
    + rewrite E1. rewrite Z_mod_same_full. reflexivity.
    + rewrite Z.mod_small by lia. destruct (Z.eqb_spec (x + 1) 0); lia.
Qed.
Lemma seg_app a b c : (a <= b)%nat -> (b <= c)%nat -> seg a b ++ seg b c = seg a c.
Proof. intros. unfold seg. rewrite <- map_app. f_equal. replace (c - a)%nat with ((b - a) + (c - b))%nat by lia. rewrite seq_app. f_equal. f_equal. lia. Qed.
Lemma seg_perm : 1 <= i <= N -> Permutation (seg 0 n) (upto n).
Proof.
  intros R. apply NoDup_Permutation_bis.
  - unfold seg. rewrite Nat.sub_0_r. generalize (seq_NoDup n 0). assert (forall o, In o (seq 0 n) -> (o < n)%nat) as L by (intros o I; apply in_seq in I; lia).
    induction (seq 0 n) as [|o l IH]; cbn; intros ND; [constructor|]. apply NoDup_cons_iff in ND as [NI ND]. constructor.
    + intros I. apply in_map_iff in I as (o' & E & I'). apply pos_inj in E; [subst; contradiction|apply L; right; assumption|apply L; left; reflexivity].
    + apply IH; [intros o' I'; apply L; right; assumption|assumption].
  - unfold seg, upto. rewrite !map_length, !seq_length. lia.
  - intros x I. unfold seg in I. apply in_map_iff in I as (o & <- & _). apply upto_In. apply pos_range.
Qed.
Lemma arcs_cases j k fuel : 1 <= i <= N -> 1 <= j <= N -> 1 <= k <= N -> i <> j -> j <> k -> i <> k -> (n < fuel)%nat ->
  exists a b, (0 < a < n)%nat /\ (0 < b < n)%nat /\ pos a = j /\ pos b = k /\
   ((a < b)%nat /\ arcs fuel N [i; j; k] = Ok (seg 0 a, seg a b, seg b n) \/
    (b < a)%nat /\ arcs fuel N [i; j; k] = Ok (seg 0 b, seg a n, seg b a)).
Proof.
  intros Ri Rj Rk D1 D2 D3 F.
  assert (NP : 0 < N) by lia.
  pose proof (Z.mod_pos_bound (j - i) N NP) as Ba. pose proof (Z.mod_pos_bound (k - i) N NP) as Bb.
  pose proof (pos_off j Rj) as Pj. pose proof (pos_off k Rk) as Pk.
  set (a := Z.to_nat ((j - i) mod N)) in *. set (b := Z.to_nat ((k - i) mod N)) in *.
  assert (La : (a < n)%nat) by (unfold a, N in *; lia). assert (Lb : (b < n)%nat) by (unfold b, N in *; lia).
  assert (a <> 0%nat) by (intros E; rewrite E, pos_0 in Pj by assumption; congruence).
  assert (b <> 0%nat) by (intros E; rewrite E, pos_0 in Pk by assumption; congruence).
  assert (a <> b) by (intros E; rewrite E in Pj; congruence).
  clearbody a b.
  exists a, b. split; [lia|]. split; [lia|]. split; [assumption|]. split; [assumption|].
  unfold arcs. assert (EN : N =? 0 = false) by (apply Z.eqb_neq; lia). rewrite EN.
  assert (Ei : [i] = seg 0 1) by (rewrite seg_one, pos_0 by assumption; reflexivity).
  assert (Ej : [j] = seg a (S a)) by (rewrite seg_one, Pj; reflexivity).
  assert (Ek : [k] = seg b (S b)) by (rewrite seg_one, Pk; reflexivity).
  assert (G : forall lo hi l1 l2, (lo < hi)%nat -> (hi <= n)%nat -> (forall o, (lo < o < hi)%nat -> ~ In (pos o) l1 /\ ~ In (pos o) l2) ->
     In (pos hi) l1 \/ In (pos hi) l2 -> grow fuel N (seg lo (S lo)) l1 l2 = Ok (seg lo hi)).
  { intros lo hi l1 l2 L1 L2 Out Hit. apply (grow_seg lo hi l1 l2 (hi - S lo)); try lia; auto. }
  rewrite Ei, Ej, Ek.
  destruct (Nat.lt_ge_cases a b) as [LT|GE]; [left|right]; (split; [lia|]).
  - rewrite (G 0%nat a); [|lia|lia|intros o R; rewrite !seg_In by lia; lia|left; apply seg_In; lia]. cbn [rbind].
    rewrite (G a b); [|lia|lia|intros o R; rewrite !seg_In by lia; lia|left; apply seg_In; lia]. cbn [rbind].
    rewrite (G b n); [reflexivity|lia|lia|intros o R; rewrite !seg_In by lia; lia|left; rewrite pos_wrap; apply seg_In; lia].
  - rewrite (G 0%nat b); [|lia|lia|intros o R; rewrite !seg_In by lia; lia|right; apply seg_In; lia]. cbn [rbind].
    rewrite (G a n); [|lia|lia|intros o R; rewrite !seg_In by lia; lia|right; rewrite pos_wrap; apply seg_In; lia]. cbn [rbind].
    rewrite (G b a); [reflexivity|lia|lia|intros o R; rewrite !seg_In by lia; lia|right; apply seg_In; lia].
Qed.
End A.

Lemma arcs_three n i j k fuel : let N := Z.of_nat n in
  1 <= i <= N -> 1 <= j <= N -> 1 <= k <= N -> i <> j -> j <> k -> i <> k -> (n < fuel)%nat ->
  exists A B C, arcs fuel N [i; j; k] = Ok (A, B, C) /\ three_arcs n i j k A B C.
Proof.
  intros N Ri Rj Rk D1 D2 D3 F. unfold N in *. assert (Hn : (0 < n)%nat) by lia.
  destruct (arcs_cases n i Hn j k fuel Ri Rj Rk D1 D2 D3 F) as (a & b & La & Lb & Pj & Pk & [[LT E]|[LT E]]).
  - do 3 eexists. split; [exact E|]. unfold three_arcs. rewrite !seg_hd by lia. rewrite pos_0, Pj, Pk by assumption.
    repeat (split; [reflexivity || apply seg_consecutive; assumption|]).
    rewrite seg_app, seg_app by lia. apply seg_perm; assumption.
  - do 3 eexists. split; [exact E|]. unfold three_arcs. rewrite !seg_hd by lia. rewrite pos_0, Pj, Pk by assumption.
    repeat (split; [reflexivity || apply seg_consecutive; assumption|]).
    rewrite (Permutation_app_comm (seg n i a n)). rewrite seg_app, seg_app by lia. apply seg_perm; assumption.
Qed.

(* labels that are never reached: the loop of the code does not end *)
Lemma grow_stuck n l1 l2 : 0 < n -> (forall x, In x l1 \/ In x l2 -> n < x) -> forall fuel l, grow fuel n l l1 l2 = Err Diverges.
Proof.
  intros NP Out. induction fuel as [|fuel IH]; intros l; [reflexivity|]. cbn [grow].
  assert (R : 0 < next_leg n (last l 0) <= n).
  { unfold next_leg. pose proof (Z.mod_pos_bound (last l 0 + 1) n NP). destruct (Z.eqb_spec ((last l 0 + 1) mod n) 0); lia. }
  rewrite (zmem_out _ l1), (zmem_out _ l2); [apply IH| |]; intros I; [specialize (Out (next_leg n (last l 0)) (or_intror I))|specialize (Out (next_leg n (last l 0)) (or_introl I))]; lia.
Qed.
Lemma arcs_stuck n i j k fuel : 0 < n -> n < j -> n < k -> arcs fuel n [i; j; k] = Err Diverges.
Proof.
  intros NP Lj Lk. unfold arcs. assert (n =? 0 = false) as -> by (apply Z.eqb_neq; lia).
  rewrite grow_stuck; [reflexivity|assumption|]. cbn. intros x I. lia.
Qed.

(* the three arcs are determined by where they start *)
Lemma next_inj n x y : 1 <= x <= n -> 1 <= y <= n -> next_leg n x = next_leg n y -> x = y.
Proof.
  intros Rx Ry. assert (F : forall z, 1 <= z <= n -> next_leg n z = if z =? n then 1 else z + 1).
  { intros z R. unfold next_leg. destruct (Z.eqb_spec z n) as [->|NE].
    - replace (n + 1) with (1 + 1 * n) by lia. rewrite Z_mod_plus_full.
      destruct (Z.eq_dec n 1) as [->|]; [reflexivity|]. rewrite Z.mod_small by lia. reflexivity.
    - destruct (Z.eq_dec (z + 1) n) as [E|E].
      + rewrite E, Z_mod_same_full. rewrite Z.eqb_refl. reflexivity.
      + rewrite Z.mod_small by lia. destruct (Z.eqb_spec (z + 1) 0); lia. }
  rewrite (F x Rx), (F y Ry). destruct (Z.eqb_spec x n), (Z.eqb_spec y n); lia.
Qed.
Lemma consecutive_cons n x l : consecutive n (x :: l) -> consecutive n l.
Proof. intros C l1 a b l2 E. apply (C (x :: l1) a b l2). cbn. rewrite E. reflexivity. Qed.
Lemma pos_shift n i o : (0 < n)%nat -> 1 <= i <= Z.of_nat n -> pos n (i mod Z.of_nat n + 1) o = pos n i (S o).
Proof.
  intros Hn R. unfold pos. set (N := Z.of_nat n) in *. replace (i mod N + 1 - 1 + Z.of_nat o) with (i mod N + Z.of_nat o) by lia.
  rewrite Z.add_mod_idemp_l by lia. f_equal. f_equal. lia.
Qed.
Lemma consecutive_seg n : (0 < n)%nat -> forall l i, 1 <= i <= Z.of_nat n -> hd_error l = Some i -> consecutive (Z.of_nat n) l -> l = seg n i 0 (length l).
Proof.
  intros Hn. induction l as [|x l IH]; intros i R H C; [discriminate|]. cbn in H. injection H as ->.
  cbn [length]. unfold seg. cbn [Nat.sub seq map]. rewrite pos_0 by assumption. f_equal.
  destruct l as [|y l]; [reflexivity|].
  assert (Ey : y = i mod Z.of_nat n + 1) by (apply (C [] i y l); reflexivity).
  pose proof (Z.mod_pos_bound i (Z.of_nat n)).
  rewrite (IH y) at 1; [|lia|reflexivity|apply (consecutive_cons _ _ _ C)].
  unfold seg. rewrite Nat.sub_0_r. rewrite <- seq_shift, map_map. apply map_ext. intros o. subst y. apply pos_shift; assumption.
Qed.
Lemma three_arcs_rot n i j k A B C : three_arcs n i j k A B C -> three_arcs n j k i B C A.
Proof.
  intros (HA & HB & HC & CA & CB & CC & P). unfold three_arcs. repeat (split; [assumption|]).
  rewrite app_assoc, Permutation_app_comm. assumption.
Qed.
Lemma hd_In {A} (l : list A) x : hd_error l = Some x -> In x l.
Proof. destruct l; [discriminate|]. cbn. intros [= ->]. left; reflexivity. Qed.
Lemma three_arcs_range n i j k A B C : three_arcs n i j k A B C -> 1 <= i <= Z.of_nat n.
Proof.
  intros (HA & HB & HC & CA & CB & CC & P). apply upto_In. apply (Permutation_in _ P). apply in_or_app. left. apply hd_In, HA.
Qed.
Lemma NoDup_disj {A} (l l' : list A) x : NoDup (l ++ l') -> In x l -> In x l' -> False.
Proof.
  induction l as [|y l IH]; cbn; [contradiction|]. intros ND [->|I] I'; apply NoDup_cons_iff in ND as [NI ND].
  - apply NI, in_or_app. right; assumption.
  - apply IH; assumption.
Qed.
Lemma three_arcs_first n i j k A B C : three_arcs n i j k A B C ->
  A = seg n i 0 (length A) /\ (pos n i (length A) = j \/ pos n i (length A) = k) /\ (0 < length A)%nat /\
  forall o, (o < length A)%nat -> pos n i o <> j /\ pos n i o <> k.
Proof.
  intros T. pose proof (three_arcs_range _ _ _ _ _ _ _ T) as Ri.
  pose proof (three_arcs_range _ _ _ _ _ _ _ (three_arcs_rot _ _ _ _ _ _ _ T)) as Rj.
  pose proof (three_arcs_range _ _ _ _ _ _ _ (three_arcs_rot _ _ _ _ _ _ _ (three_arcs_rot _ _ _ _ _ _ _ T))) as Rk.
  destruct T as (HA & HB & HC & CA & CB & CC & P).
  assert (Hn : (0 < n)%nat) by lia.
  pose proof (consecutive_seg n Hn A i Ri HA CA) as EA. pose proof (consecutive_seg n Hn B j Rj HB CB) as EB. pose proof (consecutive_seg n Hn C k Rk HC CC) as EC.
  assert (ND : NoDup (A ++ B ++ C)) by (apply (Permutation_NoDup (Permutation_sym P)), upto_NoDup).
  assert (DA : forall x, In x A -> In x B \/ In x C -> False) by (intros x I I'; apply (NoDup_disj A (B ++ C) x ND I), in_or_app; assumption).
  assert (PA : (0 < length A)%nat) by (destruct A; [discriminate|cbn; lia]).
  assert (IA : forall o, (o < length A)%nat -> In (pos n i o) A).
  { intros o L. rewrite EA. unfold seg. apply in_map, in_seq. lia. }
  assert (LA : (length A < n)%nat).
  { pose proof (Permutation_length P) as L. unfold upto in L. rewrite !app_length, map_length, seq_length in L.
    destruct B; [discriminate|]. cbn in L. lia. }
  split; [assumption|]. split; [|split; [assumption|]].
  - assert (I : In (pos n i (length A)) (A ++ B ++ C)).
    { apply (Permutation_in _ (Permutation_sym P)), upto_In, pos_range. assumption. }
    assert (PR : forall q, (0 < q)%nat -> In (pos n i (length A)) (seg n j 0 q) -> pos n i (length A) = j \/ In (pos n i (length A - 1)) (seg n j 0 q)).
    { intros q Lq Iq. unfold seg in Iq. apply in_map_iff in Iq as (o & E & Io). apply in_seq in Io. destruct o as [|o]; [left; rewrite <- E; apply pos_0; assumption|right].
      rewrite <- pos_next in E by assumption. replace (length A) with (S (length A - 1)) in E by lia. rewrite <- pos_next in E by assumption.
      apply next_inj in E; [|apply pos_range; assumption|apply pos_range; assumption]. rewrite <- E. unfold seg. apply in_map, in_seq. lia. }
    assert (PR' : forall q, (0 < q)%nat -> In (pos n i (length A)) (seg n k 0 q) -> pos n i (length A) = k \/ In (pos n i (length A - 1)) (seg n k 0 q)).
    { intros q Lq Iq. unfold seg in Iq. apply in_map_iff in Iq as (o & E & Io). apply in_seq in Io. destruct o as [|o]; [left; rewrite <- E; apply pos_0; assumption|right].
      rewrite <- pos_next in E by assumption. replace (length A) with (S (length A - 1)) in E by lia. rewrite <- pos_next in E by assumption.
      apply next_inj in E; [|apply pos_range; assumption|apply pos_range; assumption]. rewrite <- E. unfold seg. apply in_map, in_seq. lia. }
    apply in_app_or in I as [I|I]; [|apply in_app_or in I as [I|I]].
    + assert (I2 : In (pos n i (length A)) (seg n i 0 (length A))) by (rewrite <- EA; exact I).
      apply seg_In in I2; lia.
    + rewrite EB in I. apply PR in I; [|destruct B; [discriminate|cbn; lia]]. destruct I as [I|I]; [left; assumption|]. rewrite <- EB in I.
      destruct (DA (pos n i (length A - 1))); [apply IA; lia|left; assumption].
    + rewrite EC in I. apply PR' in I; [|destruct C; [discriminate|cbn; lia]]. destruct I as [I|I]; [right; assumption|]. rewrite <- EC in I.
      destruct (DA (pos n i (length A - 1))); [apply IA; lia|right; assumption].
  - intros o L. split; intros E; apply (DA (pos n i o) (IA o L)); rewrite E; [left; apply hd_In, HB|right; apply hd_In, HC].
Qed.
Lemma three_arcs_unique1 n i j k A B C A' B' C' : three_arcs n i j k A B C -> three_arcs n i j k A' B' C' -> A = A'.
Proof.
  intros T T'. apply three_arcs_first in T as (E & H & _ & M). apply three_arcs_first in T' as (E' & H' & _ & M').
  assert (length A = length A').
  { destruct (Nat.lt_trichotomy (length A) (length A')) as [L|[L|L]]; [|assumption|].
    - destruct (M' _ L) as [N1 N2]. destruct H; contradiction.
    - destruct (M _ L) as [N1 N2]. destruct H'; contradiction. }
  rewrite E, E', H0. reflexivity.
Qed.
Lemma three_arcs_unique n i j k A B C A' B' C' : three_arcs n i j k A B C -> three_arcs n i j k A' B' C' -> A = A' /\ B = B' /\ C = C'.
Proof.
  intros T T'. pose proof (three_arcs_rot _ _ _ _ _ _ _ T) as R. pose proof (three_arcs_rot _ _ _ _ _ _ _ T') as R'.
  pose proof (three_arcs_rot _ _ _ _ _ _ _ R) as Q. pose proof (three_arcs_rot _ _ _ _ _ _ _ R') as Q'.
  split; [apply (three_arcs_unique1 _ _ _ _ _ _ _ _ _ _ T T')|split; [apply (three_arcs_unique1 _ _ _ _ _ _ _ _ _ _ R R')|apply (three_arcs_unique1 _ _ _ _ _ _ _ _ _ _ Q Q')]].
Qed.
Lemma three_arcs_distinct n i j k A B C : three_arcs n i j k A B C -> i <> j /\ j <> k /\ i <> k.
Proof.
  intros (HA & HB & HC & _ & _ & _ & P). apply hd_In in HA, HB, HC.
  assert (ND : NoDup (A ++ B ++ C)) by (apply (Permutation_NoDup (Permutation_sym P)), upto_NoDup).
  assert (ND2 : NoDup (B ++ C)) by (clear - ND; induction A; [assumption|apply IHA; apply NoDup_cons_iff in ND; tauto]).
  repeat split; intros ->.
  - apply (NoDup_disj A (B ++ C) j ND HA). apply in_or_app; left; assumption.
  - apply (NoDup_disj B C k ND2 HB HC).
  - apply (NoDup_disj A (B ++ C) k ND HA). apply in_or_app; right; assumption.
Qed.
Lemma arcs_iff n i j k fuel A B C : let N := Z.of_nat n in
  1 <= i <= N -> 1 <= j <= N -> 1 <= k <= N -> i <> j -> j <> k -> i <> k -> (n < fuel)%nat ->
  (arcs fuel N [i; j; k] = Ok (A, B, C) <-> three_arcs n i j k A B C).
Proof.
  intros N Ri Rj Rk D1 D2 D3 F. destruct (arcs_three n i j k fuel Ri Rj Rk D1 D2 D3 F) as (A' & B' & C' & E & T). unfold N. rewrite E. split.
  - intros [= <- <- <-]. assumption.
  - intros T'. destruct (three_arcs_unique _ _ _ _ _ _ _ _ _ _ T T') as (-> & -> & ->). reflexivity.
Qed.
Lemma three_arcs_arcs n i j k fuel A B C : (n < fuel)%nat -> three_arcs n i j k A B C -> arcs fuel (Z.of_nat n) [i; j; k] = Ok (A, B, C).
Proof.
  intros F T. destruct (three_arcs_distinct _ _ _ _ _ _ _ T) as (D1 & D2 & D3).
  pose proof (three_arcs_rot _ _ _ _ _ _ _ T) as R. pose proof (three_arcs_rot _ _ _ _ _ _ _ R) as Q.
  apply arcs_iff; eauto using three_arcs_range.
Qed.
