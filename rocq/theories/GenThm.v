(* Proofs about the generated lists of strings. *)
From Coq Require Import Ascii String.
From Coq Require Import List ZArith Bool Lia Sorted Permutation.
From Verif Require Import Base Symm Str SymmThm MassesThm Gen GenSpec.
Import ListNotations.
Open Scope Z_scope.

(* ---- decimal strings ---- *)
Fixpoint val (acc : Z) (l : list Z) : Z := match l with [] => acc | d :: l' => val (10 * acc + d) l' end.
Lemma val_app l1 : forall l2 a, val a (l1 ++ l2) = val (val a l1) l2.
Proof. induction l1; intros; cbn; auto. Qed.
Lemma digits_val f : forall n acc, 0 <= n < 10 ^ Z.of_nat f -> exists ds, digits_fuel f n acc = ds ++ acc /\ val 0 ds = n /\ Forall (fun d => 0 <= d <= 9) ds.
Proof.
  induction f; intros n acc H; cbn [digits_fuel].
  - cbn in H. exists []. split; [reflexivity|]. split; [cbn; lia|constructor].
  - assert (M := Z.mod_pos_bound n 10 ltac:(lia)). assert (DM := Z.div_mod n 10 ltac:(lia)). destruct (Z.eqb_spec (n / 10) 0) as [E|E].
    + exists [n mod 10]. split; [reflexivity|]. split; [cbn [val]; lia|]. constructor; [lia|constructor].
    + destruct (IHf (n / 10) (n mod 10 :: acc)) as (ds & E1 & E2 & E3).
      { split; [apply Z.div_pos; lia|]. apply Z.div_lt_upper_bound; [lia|]. rewrite <- Z.pow_succ_r by lia. rewrite <- Nat2Z.inj_succ. lia. }
      exists (ds ++ [n mod 10]). split; [rewrite E1, <- app_assoc; reflexivity|]. split.
      * rewrite val_app, E2. cbn [val]. lia.
      * apply Forall_app. split; [exact E3|]. constructor; [lia|constructor].
Qed.
Lemma pow10_ge k : Z.of_nat k < 10 ^ Z.of_nat k.
Proof. induction k; [cbn; lia|]. rewrite Nat2Z.inj_succ, Z.pow_succ_r by lia. lia. Qed.
Lemma str_val n : 0 <= n -> val 0 (str n) = n /\ Forall (fun d => 0 <= d <= 9) (str n).
Proof.
  intros H. unfold str. destruct (digits_val (S (Z.to_nat n)) n []) as (ds & E & V & F).
  { split; [exact H|]. assert (P := pow10_ge (S (Z.to_nat n))). assert (E : Z.of_nat (S (Z.to_nat n)) = n + 1) by lia. rewrite E in *. apply Z.lt_trans with (n + 1); [lia|exact P]. }
  rewrite E, app_nil_r. auto.
Qed.
Lemma dec_digits n : 0 <= n -> Forall (fun c => 48 <= c <= 57) (dec n).
Proof. intros H. unfold dec. apply Forall_map. destruct (str_val n H) as [_ F]. eapply Forall_impl; [|exact F]. intros a; cbv beta; intros; lia. Qed.
Lemma map_add_inj (a : Z) l1 : forall l2, map (Z.add a) l1 = map (Z.add a) l2 -> l1 = l2.
Proof. induction l1; intros [|b l2] H; cbn in H; try discriminate; [reflexivity|]. injection H as H1 H2. f_equal; [lia|auto]. Qed.
Lemma dec_inj a b : 0 <= a -> 0 <= b -> dec a = dec b -> a = b.
Proof. intros Ha Hb H. unfold dec in H. apply map_add_inj in H. destruct (str_val a Ha) as [E _], (str_val b Hb) as [E' _]. congruence. Qed.
(* a number ends where something else than a digit begins *)
Lemma digits_split l1 : forall l2 x y r1 r2, Forall (fun c => 48 <= c <= 57) l1 -> Forall (fun c => 48 <= c <= 57) l2 -> (x < 48 \/ 57 < x) -> (y < 48 \/ 57 < y) ->
  l1 ++ x :: r1 = l2 ++ y :: r2 -> l1 = l2 /\ x = y /\ r1 = r2.
Proof.
  induction l1 as [|a l1 IH]; intros [|b l2] x y r1 r2 F1 F2 X Y E; cbn in E.
  - injection E; auto.
  - injection E as E1 E2. inversion F2; subst. exfalso; lia.
  - injection E as E1 E2. inversion F1; subst. exfalso; lia.
  - injection E as E1 E2. inversion F1; subst. inversion F2; subst. destruct (IH l2 x y r1 r2) as (-> & -> & ->); auto.
Qed.
Lemma angle_inj i j i' j' : 0 <= i -> 0 <= j -> 0 <= i' -> 0 <= j' -> angle_name i j = angle_name i' j' -> i = i' /\ j = j'.
Proof.
  intros A B C D H. unfold angle_name in H. injection H as H. apply digits_split in H as (H1 & _ & H2); try (apply dec_digits; assumption); try lia.
  apply digits_split in H2 as (H3 & _ & _); try (apply dec_digits; assumption); try lia. split; apply dec_inj; auto.
Qed.
Lemma square_inj i j i' j' : 0 <= i -> 0 <= j -> 0 <= i' -> 0 <= j' -> square_name i j = square_name i' j' -> i = i' /\ j = j'.
Proof.
  intros A B C D H. unfold square_name in H. injection H as H. apply digits_split in H as (H1 & _ & H2); try (apply dec_digits; assumption); try lia.
  apply digits_split in H2 as (H3 & _ & _); try (apply dec_digits; assumption); try lia. split; apply dec_inj; auto.
Qed.

(* ---- ranges and lists ---- *)
Lemma zrange_In a b x : In x (zrange a b) <-> a <= x < b.
Proof.
  unfold zrange. rewrite in_map_iff. split.
  - intros (k & <- & H). apply in_seq in H. lia.
  - intros H. exists (Z.to_nat (x - a)). split; [lia|]. apply in_seq. lia.
Qed.
Lemma zrange_NoDup a b : NoDup (zrange a b).
Proof. unfold zrange. apply FinFun.Injective_map_NoDup; [intros x y H; lia|apply seq_NoDup]. Qed.
Lemma occ_one t l : NoDup l -> In t l -> occurrences t l = 1%nat.
Proof. intros N H. unfold occurrences. apply NoDup_count_occ'; assumption. Qed.
Lemma occ_zero t l : ~ In t l -> occurrences t l = 0%nat.
Proof. intros H. unfold occurrences. apply count_occ_not_In. exact H. Qed.
Lemma NoDup_app'' {A} (l1 l2 : list A) : NoDup l1 -> NoDup l2 -> (forall x, In x l1 -> ~ In x l2) -> NoDup (l1 ++ l2).
Proof.
  induction 1 as [|x l1 N _ IH]; intros N2 D; cbn; [exact N2|]. constructor.
  - rewrite in_app_iff. intros [H|H]; [exact (N H)|exact (D x (or_introl eq_refl) H)].
  - apply IH; auto. intros y Hy. apply D. right. exact Hy.
Qed.
(* a flat_map has no repetition when its pieces have none and are disjoint *)
Lemma NoDup_flat_map {A B} (f : A -> list B) l : NoDup l -> (forall x, In x l -> NoDup (f x)) ->
  (forall x y b, In x l -> In y l -> In b (f x) -> In b (f y) -> x = y) -> NoDup (flat_map f l).
Proof.
  induction 1 as [|x l N _ IH]; intros P D; cbn; [constructor|]. apply NoDup_app''.
  - apply P. left; reflexivity.
  - apply IH; [intros; apply P; right; assumption|]. intros a b c Ha Hb. apply D; right; assumption.
  - intros b Hb H. apply in_flat_map in H as (y & Hy & H). assert (x = y) as -> by (apply (D x y b); [left; reflexivity|right; exact Hy|exact Hb|exact H]). exact (N Hy).
Qed.
Lemma NoDup_map_in {A B} (f : A -> B) l : NoDup l -> (forall x y, In x l -> In y l -> f x = f y -> x = y) -> NoDup (map f l).
Proof.
  induction 1 as [|x l N _ IH]; intros I; cbn; constructor.
  - intros H. apply in_map_iff in H as (y & E & Hy). apply N. rewrite (I x y); auto; [left; reflexivity|right; assumption].
  - apply IH. intros y z Hy Hz. apply I; right; assumption.
Qed.

(* ---- invs_2 ---- *)
Definition gen_2_all (n : Z) : list pystr :=
  flat_map (fun first => flat_map (fun last =>
      if first >? last then [] else flat_map (fun counter => if first <? last then [two_string counter first last] else []) [0; 1])
    (zrange 1 (n + 1))) (zrange 1 (n + 1)).
Lemma two_angle i j : two_string 0 i j = angle_name i j.
Proof. unfold two_string, angle_name. cbn. rewrite <- app_assoc. reflexivity. Qed.
Lemma two_square i j : two_string 1 i j = square_name i j.
Proof. unfold two_string, square_name. cbn. rewrite <- app_assoc. reflexivity. Qed.
Lemma gen_2_all_In n t : In t (gen_2_all n) <-> exists i j, 1 <= i < j /\ j <= n /\ (t = angle_name i j \/ t = square_name i j).
Proof.
  unfold gen_2_all. rewrite in_flat_map. setoid_rewrite in_flat_map. setoid_rewrite zrange_In. split.
  - intros (i & Hi & j & Hj & H). destruct (i >? j) eqn:G; [destruct H|]. cbn [flat_map] in H. rewrite app_nil_r in H.
    destruct (Z.ltb_spec i j) as [L|L]; [|destruct H]. cbn [app In] in H. exists i, j. rewrite <- two_angle, <- two_square. repeat split; try lia. destruct H as [H|[H|[]]]; auto.
  - intros (i & j & Hij & Hj & H). exists i. split; [lia|]. exists j. split; [lia|]. destruct (Z.gtb_spec i j); [lia|]. cbn [flat_map].
    destruct (Z.ltb_spec i j); [|lia]. cbn [app In]. rewrite two_angle, two_square. intuition auto.
Qed.
Lemma gen_2_all_NoDup n : NoDup (gen_2_all n).
Proof.
  assert (P : forall i j t, In t (if i >? j then [] else flat_map (fun counter => if i <? j then [two_string counter i j] else []) [0; 1]) ->
    i < j /\ (t = angle_name i j \/ t = square_name i j)).
  { intros i j t H. destruct (i >? j) eqn:G; [destruct H|]. cbn [flat_map] in H. rewrite app_nil_r in H. destruct (Z.ltb_spec i j) as [L|L]; [|destruct H].
    cbn [app In] in H. rewrite <- two_angle, <- two_square. split; [exact L|]. destruct H as [H|[H|[]]]; auto. }
  assert (D : forall i j i' j' t, 1 <= i -> 1 <= j -> 1 <= i' -> 1 <= j' -> (t = angle_name i j \/ t = square_name i j) -> (t = angle_name i' j' \/ t = square_name i' j') -> i = i' /\ j = j').
  { intros i j i' j' t ? ? ? ? [-> | ->] [E|E]; try discriminate E; [apply angle_inj in E|apply square_inj in E]; auto; lia. }
  unfold gen_2_all. apply NoDup_flat_map; [apply zrange_NoDup| |].
  - intros i Hi. apply zrange_In in Hi. apply NoDup_flat_map; [apply zrange_NoDup| |].
    + intros j Hj. destruct (i >? j); [constructor|]. cbn [flat_map]. rewrite app_nil_r. destruct (i <? j); [|constructor].
      cbn [app]. constructor; [|constructor; [intros []|constructor]]. intros [H|[]]. rewrite two_angle, two_square in H. discriminate H.
    + intros j j' t Hj Hj' H H'. apply zrange_In in Hj, Hj'. apply P in H as [_ H], H' as [_ H']. apply (D i j i j' t); auto; lia.
  - intros i i' t Hi Hi' H H'. apply in_flat_map in H as (j & Hj & H). apply in_flat_map in H' as (j' & Hj' & H'). apply zrange_In in Hi, Hi', Hj, Hj'.
    apply P in H as [_ H], H' as [_ H']. apply (D i j i' j' t); auto; lia.
Qed.
Lemma pA2_angle i j : 0 <= i <= 9 -> 0 <= j <= 9 -> pA2_match (angle_name i j) = true.
Proof.
  intros Hi Hj. unfold angle_name. rewrite (dec_digit i Hi), (dec_digit j Hj). cbn [app]. unfold pA2_match, is_digit.
  repeat (apply andb_true_iff; split); try reflexivity; apply Z.leb_le; lia.
Qed.
Lemma pA2_square i j : pA2_match (square_name i j) = false.
Proof. unfold square_name. cbn [app]. destruct (dec i ++ 124 :: dec j ++ [93]) as [|a [|b [|c [|d [|e l]]]]]; reflexivity. Qed.

Theorem gen_2_angle n i j : 1 <= i < j -> j <= n -> occurrences (angle_name i j) (gen_2 n) = 1%nat.
Proof.
  intros H1 H2. unfold gen_2. fold (gen_2_all n). assert (I : In (angle_name i j) (gen_2_all n)) by (apply gen_2_all_In; exists i, j; auto).
  destruct (Z.eqb_spec n 4) as [->|_]; apply occ_one; auto using gen_2_all_NoDup, NoDup_filter. apply filter_In. split; [exact I|]. apply pA2_angle; lia.
Qed.
Theorem gen_2_square n i j : 1 <= i < j -> j <= n -> occurrences (square_name i j) (gen_2 n) = if n =? 4 then 0%nat else 1%nat.
Proof.
  intros H1 H2. unfold gen_2. fold (gen_2_all n). assert (I : In (square_name i j) (gen_2_all n)) by (apply gen_2_all_In; exists i, j; auto).
  destruct (Z.eqb_spec n 4) as [->|_]; [|apply occ_one; auto using gen_2_all_NoDup]. apply occ_zero. intros H. apply filter_In in H as [_ H]. rewrite pA2_square in H. discriminate H.
Qed.
Theorem gen_2_only n t : In t (gen_2 n) -> exists i j, 1 <= i < j /\ j <= n /\ (t = angle_name i j \/ t = square_name i j).
Proof. unfold gen_2. fold (gen_2_all n). intros H. apply gen_2_all_In. destruct (n =? 4); [apply filter_In in H as [H _]|]; exact H. Qed.

(* ---- combinations ---- *)
Lemma comb_length {A} k : forall (l : list A) c, In c (combinations k l) -> length c = k /\ incl c l.
Proof.
  intros l. revert k. induction l as [|x l IH]; intros [|k] c H; cbn in H.
  - destruct H as [<-|[]]. split; [reflexivity|intros y []].
  - destruct H.
  - destruct H as [<-|[]]. split; [reflexivity|intros y []].
  - apply in_app_iff in H as [H|H].
    + apply in_map_iff in H as (c' & <- & H). apply IH in H as [E I]. split; [cbn; lia|]. intros y [->|Hy]; [left; reflexivity|right; apply I; exact Hy].
    + apply IH in H as [E I]. split; [exact E|]. intros y Hy. right. apply I, Hy.
Qed.
Lemma comb_sorted k l : StronglySorted Z.lt l -> forall c, In c (combinations k l) -> StronglySorted Z.lt c.
Proof.
  intros S. revert k. induction S as [|x l S IH F]; intros [|k] c H; cbn in H.
  - destruct H as [<-|[]]. constructor.
  - destruct H.
  - destruct H as [<-|[]]. constructor.
  - apply in_app_iff in H as [H|H]; [|exact (IH _ _ H)]. apply in_map_iff in H as (c' & <- & H). constructor; [exact (IH _ _ H)|].
    apply comb_length in H as [_ I]. rewrite Forall_forall in *. auto.
Qed.
Lemma sorted_incl_tail x l c : StronglySorted Z.lt (x :: l) -> StronglySorted Z.lt c -> incl c (x :: l) -> (forall y, In y c -> x < y) -> incl c l.
Proof. intros _ _ I G y Hy. destruct (I y Hy) as [->|H]; [specialize (G y Hy); lia|exact H]. Qed.
Lemma comb_In k l : StronglySorted Z.lt l -> forall c, StronglySorted Z.lt c -> length c = k -> incl c l -> In c (combinations k l).
Proof.
  intros S. revert k. induction S as [|x l S IH F]; intros k c Sc L I.
  - destruct c as [|y c]; [subst k; left; reflexivity|]. destruct (I y (or_introl eq_refl)).
  - destruct c as [|y c]; [subst k; left; reflexivity|]. destruct k as [|k]; [discriminate|]. injection L as L. cbn [combinations]. apply in_app_iff.
    inversion Sc as [|? ? Sc' Fc]; subst. rewrite Forall_forall in F, Fc. destruct (I y (or_introl eq_refl)) as [E|Hy].
    + subst y. left. apply in_map. apply IH; auto. intros z Hz. destruct (I z (or_intror Hz)) as [->|H]; [specialize (Fc _ Hz); lia|exact H].
    + right. apply IH; auto. intros z [->|Hz]; [exact Hy|]. destruct (I z (or_intror Hz)) as [->|H]; [|exact H]. specialize (Fc _ Hz). specialize (F _ Hy). lia.
Qed.
Lemma comb_NoDup {A} k : forall l : list A, NoDup l -> NoDup (combinations k l).
Proof.
  intros l N. revert k. induction N as [|x l H N IH]; intros [|k]; cbn; try (constructor; [intros []|constructor]); try constructor.
  apply NoDup_app''; [apply FinFun.Injective_map_NoDup; [intros a b E; injection E; auto|auto]|auto|].
  intros c Hc Hc'. apply in_map_iff in Hc as (c' & <- & _). apply comb_length in Hc' as [_ I]. apply H, I. left; reflexivity.
Qed.
Lemma comb_map {A B} (f : A -> B) k : forall l, combinations k (map f l) = map (map f) (combinations k l).
Proof.
  intros l. revert k. induction l as [|x l IH]; intros [|k]; try reflexivity.
  assert (E : combinations (S k) (map f (x :: l)) = map (cons (f x)) (combinations k (map f l)) ++ combinations (S k) (map f l)) by reflexivity.
  rewrite E, !IH. change (combinations (S k) (x :: l)) with (map (cons x) (combinations k l) ++ combinations (S k) l). rewrite map_app, !map_map. reflexivity.
Qed.
Lemma zrange_nil a b : b <= a -> zrange a b = [].
Proof. intros H. unfold zrange. replace (Z.to_nat (b - a)) with 0%nat by lia. reflexivity. Qed.
Lemma zrange_cons a b : a < b -> zrange a b = a :: zrange (a + 1) b.
Proof.
  intros H. unfold zrange. replace (Z.to_nat (b - a)) with (S (Z.to_nat (b - (a + 1)))) by lia. cbn [seq map]. f_equal; [lia|].
  rewrite <- seq_shift, map_map. apply map_ext. intros; lia.
Qed.
Lemma zrange_sorted a b : StronglySorted Z.lt (zrange a b).
Proof.
  remember (Z.to_nat (b - a)) as k eqn:E. revert a E. induction k; intros a E.
  - rewrite zrange_nil by lia. constructor.
  - rewrite zrange_cons by lia. constructor; [apply IHk; lia|]. apply Forall_forall. intros x Hx. apply zrange_In in Hx. lia.
Qed.
Lemma sorted_lt_NoDup l : StronglySorted Z.lt l -> NoDup l.
Proof. induction 1 as [|x l _ IH F]; constructor; auto. intros H. rewrite Forall_forall in F. specialize (F _ H). lia. Qed.
(* digits *)
Lemma digits_concat l : Forall (fun x => 0 <= x <= 9) l -> concat (map dec l) = map (Z.add 48) l.
Proof. induction 1 as [|x l H _ IH]; [reflexivity|]. cbn [map concat]. rewrite (dec_digit x H), IH. reflexivity. Qed.

(* ---- invs_tr5 ---- *)
Lemma gen_tr5_eq n : 5 <= n <= 10 -> gen_tr5 n = map tr5_name (combinations 4 (zrange 1 n)).
Proof.
  intros H. unfold gen_tr5. destruct (Z.geb_spec n 5); [|lia]. rewrite digits_concat by (apply Forall_forall; intros x Hx; apply zrange_In in Hx; lia).
  rewrite comb_map, map_map. apply map_ext_in. intros c Hc. apply comb_length in Hc as [_ I]. unfold tr5_name. rewrite digits_concat; [reflexivity|].
  apply Forall_forall. intros x Hx. apply I, zrange_In in Hx. lia.
Qed.
Lemma tr5_inj I J : Forall (fun x => 0 <= x <= 9) I -> Forall (fun x => 0 <= x <= 9) J -> tr5_name I = tr5_name J -> I = J.
Proof. intros A B H. unfold tr5_name in H. apply app_inv_head in H. rewrite !digits_concat in H by assumption. apply map_add_inj in H. exact H. Qed.
Theorem gen_tr5_once n I : 5 <= n <= 10 -> legset (n - 1) I -> length I = 4%nat -> occurrences (tr5_name I) (gen_tr5 n) = 1%nat.
Proof.
  intros H [S F] L. rewrite gen_tr5_eq by exact H. apply occ_one.
  - apply NoDup_map_in; [apply comb_NoDup, zrange_NoDup|]. intros x y Hx Hy E. apply comb_length in Hx as [_ Ix], Hy as [_ Iy].
    apply tr5_inj in E; [exact E| |]; apply Forall_forall; intros z Hz; [apply Ix in Hz|apply Iy in Hz]; apply zrange_In in Hz; lia.
  - apply in_map. apply comb_In; auto using zrange_sorted. intros x Hx. rewrite Forall_forall in F. apply zrange_In. specialize (F x Hx). lia.
Qed.
Theorem gen_tr5_only n t : 5 <= n <= 10 -> In t (gen_tr5 n) -> exists I, legset (n - 1) I /\ length I = 4%nat /\ t = tr5_name I.
Proof.
  intros H Ht. rewrite gen_tr5_eq in Ht by exact H. apply in_map_iff in Ht as (I & <- & HI). exists I. assert (C := HI). apply comb_length in C as [L C].
  split; [|auto]. split; [exact (comb_sorted _ _ (zrange_sorted 1 n) _ HI)|]. apply Forall_forall. intros x Hx. apply C, zrange_In in Hx. lia.
Qed.
Lemma gen_tr5_small n : n < 5 -> gen_tr5 n = [].
Proof. intros H. unfold gen_tr5. destruct (Z.geb_spec n 5); [lia|reflexivity]. Qed.

(* ---- invs_D ---- *)
Lemma start1_eq n j : 0 <= j < n -> (- j) mod n + 1 = if j =? 0 then 1 else n - j + 1.
Proof.
  intros H. destruct (Z.eqb_spec j 0) as [->|N]; [rewrite Z.mod_0_l by lia; reflexivity|].
  rewrite <- (Z_mod_plus_full (- j) 1 n). rewrite Z.mod_small; lia.
Qed.
Lemma triple_name i j k : triple_string DELTA i j k = delta_name i j k.
Proof. reflexivity. Qed.
Lemma delta_inj a b c a' b' c' : 0 <= a <= 9 -> 0 <= b <= 9 -> 0 <= c <= 9 -> 0 <= a' <= 9 -> 0 <= b' <= 9 -> 0 <= c' <= 9 ->
  delta_name a b c = delta_name a' b' c' -> a = a' /\ b = b' /\ c = c'.
Proof. intros Ha Hb Hc Ha' Hb' Hc' H. unfold delta_name in H. rewrite !dec_digit in H by assumption. cbn [app] in H.
  assert (E2 := f_equal (fun l => nth 2 l 0) H). assert (E3 := f_equal (fun l => nth 3 l 0) H). assert (E4 := f_equal (fun l => nth 4 l 0) H). cbn [nth] in *. lia.
Qed.
(* the three beginnings of the corners for the loop variables i, j, k *)
Definition d_triple (n i j k : Z) : Z * Z * Z := (if j =? 0 then 1 else n - j + 1, i - j + 1, i - j + 1 + k).
Definition d_vars (n i j k : Z) : Prop := 2 <= i < n - 3 /\ 0 <= j < i /\ 2 <= k < n - i - 1.
Lemma d_range n i j k : d_vars n i j k -> let '(a, b, c) := d_triple n i j k in 1 <= a <= n /\ 1 <= b <= n /\ 1 <= c <= n.
Proof. unfold d_vars, d_triple. intros H. destruct (Z.eqb_spec j 0); lia. Qed.
Lemma d_inj n i j k i' j' k' : d_vars n i j k -> d_vars n i' j' k' -> d_triple n i j k = d_triple n i' j' k' -> i = i' /\ j = j' /\ k = k'.
Proof. unfold d_vars, d_triple. intros H H' E. injection E as E1 E2 E3. destruct (Z.eqb_spec j 0), (Z.eqb_spec j' 0); lia. Qed.
Definition d_name (n i j k : Z) : pystr := let '(a, b, c) := d_triple n i j k in delta_name a b c.
Lemma generate_D_In n t : In t (generate_D n) <-> exists i j k, d_vars n i j k /\ t = d_name n i j k.
Proof.
  unfold generate_D. split.
  - intros H. apply in_flat_map in H as (i & Hi & H). apply in_flat_map in H as (j & Hj & H). apply in_map_iff in H as (k & E & Hk). apply zrange_In in Hi, Hj, Hk. cbv zeta in E. exists i, j, k. split; [unfold d_vars; lia|]. unfold d_name, d_triple. rewrite <- start1_eq by lia. symmetry. exact E.
  - intros (i & j & k & (Hi & Hj & Hk) & E). apply in_flat_map. exists i. split; [apply zrange_In; lia|]. apply in_flat_map. exists j. split; [apply zrange_In; lia|].
    apply in_map_iff. exists k. split; [|apply zrange_In; lia]. cbv zeta. rewrite start1_eq by lia. symmetry. exact E.
Qed.
Lemma d_name_inj n i j k i' j' k' : n <= 9 -> d_vars n i j k -> d_vars n i' j' k' -> d_name n i j k = d_name n i' j' k' -> i = i' /\ j = j' /\ k = k'.
Proof.
  intros N H H' E. assert (R := d_range n i j k H). assert (R' := d_range n i' j' k' H'). apply (d_inj n); auto. unfold d_name in E.
  destruct (d_triple n i j k) as [[a b] c], (d_triple n i' j' k') as [[a' b'] c']. apply delta_inj in E as (-> & -> & ->); try lia. reflexivity.
Qed.
Lemma generate_D_NoDup n : n <= 9 -> NoDup (generate_D n).
Proof.
  intros N. unfold generate_D.
  assert (EQ : forall i j k, d_vars n i j k -> triple_string DELTA ((- j) mod n + 1) (i - j + 1) (i - j + 1 + k) = d_name n i j k).
  { intros i j k H. unfold d_name, d_triple. rewrite start1_eq by (unfold d_vars in H; lia). reflexivity. }
  apply NoDup_flat_map; [apply zrange_NoDup| |].
  - intros i Hi. apply zrange_In in Hi. apply NoDup_flat_map; [apply zrange_NoDup| |].
    + intros j Hj. apply zrange_In in Hj. apply NoDup_map_in; [apply zrange_NoDup|]. intros k k' Hk Hk' E. apply zrange_In in Hk, Hk'.
      cbv zeta in E. rewrite !EQ in E by (unfold d_vars; lia). apply d_name_inj in E; unfold d_vars; lia.
    + intros j j' t Hj Hj' H H'. apply zrange_In in Hj, Hj'. apply in_map_iff in H as (k & <- & Hk), H' as (k' & E & Hk'). apply zrange_In in Hk, Hk'.
      cbv zeta in E. rewrite !EQ in E by (unfold d_vars; lia). apply d_name_inj in E; unfold d_vars; lia.
  - intros i i' t Hi Hi' H H'. apply zrange_In in Hi, Hi'. apply in_flat_map in H as (j & Hj & H), H' as (j' & Hj' & H'). apply zrange_In in Hj, Hj'.
    apply in_map_iff in H as (k & <- & Hk), H' as (k' & E & Hk'). apply zrange_In in Hk, Hk'.
    cbv zeta in E. rewrite !EQ in E by (unfold d_vars; lia). apply d_name_inj in E; unfold d_vars; lia.
Qed.
Lemma gen_D_occ n a b c : n <= 9 -> 1 <= a <= n -> 1 <= b <= n -> 1 <= c <= n ->
  (exists i j k, d_vars n i j k /\ d_triple n i j k = (a, b, c)) \/ ~ (exists i j k, d_vars n i j k /\ d_triple n i j k = (a, b, c)) /\ occurrences (delta_name a b c) (gen_D n) = 0%nat.
Proof.
  intros N Ha Hb Hc. destruct (in_dec (list_eq_dec Z.eq_dec) (delta_name a b c) (generate_D n)) as [H|H].
  - left. apply generate_D_In in H as (i & j & k & V & E). exists i, j, k. split; [exact V|]. assert (R := d_range n i j k V). unfold d_name in E.
    destruct (d_triple n i j k) as [[x y] z]. apply delta_inj in E as (-> & -> & ->); try lia. reflexivity.
  - right. split.
    + intros (i & j & k & V & E). apply H, generate_D_In. exists i, j, k. split; [exact V|]. unfold d_name. rewrite E. reflexivity.
    + apply occ_zero. unfold gen_D. destruct (n >=? 6); [exact H|intros []].
Qed.
Theorem gen_D_once n a b c : n <= 9 -> three_corners n a b c ->
  (occurrences (delta_name a b c) (gen_D n) + occurrences (delta_name b c a) (gen_D n) + occurrences (delta_name c a b) (gen_D n) = 1)%nat.
Proof.
  intros N T. unfold three_corners in T.
  assert (ONE : forall x y z, (exists i j k, d_vars n i j k /\ d_triple n i j k = (x, y, z)) -> occurrences (delta_name x y z) (gen_D n) = 1%nat).
  { intros x y z (i & j & k & V & E). unfold gen_D. destruct (Z.geb_spec n 6); [|unfold d_vars in V; lia]. apply occ_one; [apply generate_D_NoDup; exact N|].
    apply generate_D_In. exists i, j, k. split; [exact V|]. unfold d_name. rewrite E. reflexivity. }
  assert (ZERO : forall x y z, 1 <= x <= n -> 1 <= y <= n -> 1 <= z <= n -> ~ (exists i j k, d_vars n i j k /\ d_triple n i j k = (x, y, z)) -> occurrences (delta_name x y z) (gen_D n) = 0%nat).
  { intros x y z Hx Hy Hz H. destruct (gen_D_occ n x y z N Hx Hy Hz) as [E|[_ E]]; [contradiction|exact E]. }
  destruct (Z.eq_dec a 1) as [->|A].
  - rewrite ONE, !ZERO; try lia.
    + intros (i & j & k & V & E). unfold d_vars, d_triple in *. injection E as E1 E2 E3. destruct (Z.eqb_spec j 0); lia.
    + intros (i & j & k & V & E). unfold d_vars, d_triple in *. injection E as E1 E2 E3. destruct (Z.eqb_spec j 0); lia.
    + exists (b - 1), 0, (c - b). unfold d_vars, d_triple. split; [lia|]. cbn [Z.eqb]. repeat f_equal; lia.
  - rewrite (ONE c a b), !ZERO; try lia.
    + intros (i & j & k & V & E). unfold d_vars, d_triple in *. injection E as E1 E2 E3. destruct (Z.eqb_spec j 0); lia.
    + intros (i & j & k & V & E). unfold d_vars, d_triple in *. injection E as E1 E2 E3. destruct (Z.eqb_spec j 0); lia.
    + exists (a + n - c), (n + 1 - c), (b - a). unfold d_vars, d_triple. split; [lia|]. destruct (Z.eqb_spec (n + 1 - c) 0); [lia|]. repeat f_equal; lia.
Qed.
Theorem gen_D_only n t : In t (gen_D n) -> exists a b c, three_corners n a b c /\ (t = delta_name a b c \/ t = delta_name c a b).
Proof.
  unfold gen_D. destruct (n >=? 6); [|intros []]. intros H. apply generate_D_In in H as (i & j & k & V & ->). unfold d_name, d_triple, d_vars, three_corners in *.
  destruct (Z.eqb_spec j 0) as [->|J].
  - exists 1, (i - 0 + 1), (i - 0 + 1 + k). split; [lia|left; reflexivity].
  - exists (i - j + 1), (i - j + 1 + k), (n - j + 1). split; [lia|right; reflexivity].
Qed.

(* ---- invs_s ---- *)
Lemma comb_0 {A} (l : list A) : combinations 0 l = [[]]. Proof. destruct l; reflexivity. Qed.
Lemma comb_zrange k b : forall a, combinations (S k) (zrange a b) = flat_map (fun j => map (cons j) (combinations k (zrange (j + 1) b))) (zrange a b).
Proof.
  intros a. remember (Z.to_nat (b - a)) as d eqn:E. revert a E. induction d as [|d IH]; intros a E.
  - rewrite zrange_nil by lia. reflexivity.
  - rewrite zrange_cons by lia. cbn [flat_map]. rewrite <- IH by lia. reflexivity.
Qed.
Lemma flat_map_ext_in {A B} (f g : A -> list B) l : (forall x, In x l -> f x = g x) -> flat_map f l = flat_map g l.
Proof. induction l as [|x l IH]; intros H; [reflexivity|]. cbn. rewrite (H x (or_introl eq_refl)), IH; [reflexivity|]. intros y Hy. apply H. right; exact Hy. Qed.
Lemma map_flat_map {A B C} (g : B -> C) (f : A -> list B) l : map g (flat_map f l) = flat_map (fun x => map g (f x)) l.
Proof. induction l as [|x l IH]; [reflexivity|]. cbn. rewrite map_app, IH. reflexivity. Qed.
Lemma s_loop_flat n inner js string : Forall (fun j => 0 <= j <= 9) js -> (n mod 2 <> 0 \/ Z.of_nat (length string) <> n / 2 + 1 \/ ~ In n js) ->
  s_loop n inner js string = flat_map (fun j => inner j (string ++ dec j)) js.
Proof.
  induction 1 as [|j js Hj _ IH]; intros C; [reflexivity|]. cbn [s_loop flat_map].
  replace ((n mod 2 =? 0) && (Z.of_nat (length string) =? n / 2 + 1) && (j =? n)) with false.
  - cbv zeta. f_equal. rewrite (dec_digit j Hj), removelast_last. apply IH. destruct C as [C|[C|C]]; auto. right; right. intros H. apply C. right; exact H.
  - symmetry. destruct C as [C|[C|C]].
    + destruct (Z.eqb_spec (n mod 2) 0); [contradiction|reflexivity].
    + destruct (Z.eqb_spec (Z.of_nat (length string)) (n / 2 + 1)); [contradiction|]. rewrite andb_false_r. reflexivity.
    + destruct (Z.eqb_spec j n) as [->|]; [exfalso; apply C; left; reflexivity|]. apply andb_false_r.
Qed.
Lemma zrange_snoc a b : a <= b -> zrange a (b + 1) = zrange a b ++ [b].
Proof.
  intros H. unfold zrange. replace (Z.to_nat (b + 1 - a)) with (Z.to_nat (b - a) + 1)%nat by lia. rewrite seq_app, map_app. cbn. do 2 f_equal. lia.
Qed.
Lemma s_loop_cut n inner js string : Forall (fun j => 0 <= j <= 9) js -> n mod 2 = 0 -> Z.of_nat (length string) = n / 2 + 1 -> ~ In n js ->
  s_loop n inner (js ++ [n]) string = flat_map (fun j => inner j (string ++ dec j)) js.
Proof.
  induction 1 as [|j js Hj _ IH]; intros E L N; cbn [app s_loop flat_map].
  - rewrite E, L, !Z.eqb_refl. reflexivity.
  - replace (j =? n) with false by (symmetry; apply Z.eqb_neq; intros ->; apply N; left; reflexivity). rewrite andb_false_r. cbv zeta. f_equal.
    rewrite (dec_digit j Hj), removelast_last. apply IH; auto. intros H. apply N. right; exact H.
Qed.
(* the strings that continue [string] by the labels of a list *)
Definition cont (string : pystr) (c : list Z) : pystr := string ++ concat (map dec c).
Lemma cont_cons string j cs : map (cont (string ++ dec j)) cs = map (cont string) (map (cons j) cs).
Proof. rewrite map_map. apply map_ext. intros c. unfold cont. cbn [map concat]. rewrite app_assoc. reflexivity. Qed.
Lemma dec_len j : 0 <= j <= 9 -> length (dec j) = 1%nat. Proof. intros H. rewrite dec_digit by exact H. reflexivity. Qed.
(* no cut *)
Lemma recurse_all n : n <= 9 -> forall m i string, 0 <= i -> (n mod 2 <> 0 \/ Z.of_nat (length string) + Z.of_nat m < n / 2 + 1) ->
  recurse_s (S m) n i string = map (cont string) (combinations (S m) (zrange (i + 1) (n + 1))).
Proof.
  intros N. induction m as [|m IH]; intros i string Hi C.
  - cbn [recurse_s]. rewrite s_loop_flat; [|apply Forall_forall; intros j Hj; apply zrange_In in Hj; lia|destruct C; [left; assumption|right; left; lia]].
    rewrite comb_zrange, map_flat_map. apply flat_map_ext_in. intros j Hj. rewrite comb_0. unfold cont. cbn [map concat]. rewrite app_nil_r. reflexivity.
  - change (recurse_s (S (S m)) n i string) with (s_loop n (fun j string => recurse_s (S m) n j string) (zrange (i + 1) (n + 1)) string).
    rewrite s_loop_flat; [|apply Forall_forall; intros j Hj; apply zrange_In in Hj; lia|destruct C; [left; assumption|right; left; lia]].
    rewrite comb_zrange, map_flat_map. apply flat_map_ext_in. intros j Hj. apply zrange_In in Hj. rewrite IH; [apply cont_cons|lia|].
    rewrite app_length, dec_len by lia. destruct C; [left; assumption|right; lia].
Qed.
(* the last label is cut at n - 1 *)
Lemma recurse_cut n : n <= 9 -> n mod 2 = 0 -> forall m i string, 0 <= i -> Z.of_nat (length string) + Z.of_nat m = n / 2 + 1 ->
  recurse_s (S m) n i string = map (cont string) (combinations (S m) (zrange (i + 1) n)).
Proof.
  intros N E. induction m as [|m IH]; intros i string Hi C.
  - cbn [recurse_s]. destruct (Z_lt_le_dec n (i + 1)) as [L|L].
    + rewrite !zrange_nil by lia. reflexivity.
    + rewrite zrange_snoc by lia. rewrite s_loop_cut; auto; [|apply Forall_forall; intros j Hj; apply zrange_In in Hj; lia|lia|intros H; apply zrange_In in H; lia].
      rewrite comb_zrange, map_flat_map. apply flat_map_ext_in. intros j Hj. rewrite comb_0. unfold cont. cbn [map concat]. rewrite app_nil_r. reflexivity.
  - change (recurse_s (S (S m)) n i string) with (s_loop n (fun j string => recurse_s (S m) n j string) (zrange (i + 1) (n + 1)) string).
    rewrite s_loop_flat; [|apply Forall_forall; intros j Hj; apply zrange_In in Hj; lia|right; left; lia].
    rewrite comb_zrange, map_flat_map. destruct (Z_lt_le_dec n (i + 1)) as [L|L].
    + rewrite !zrange_nil by lia. reflexivity.
    + rewrite zrange_snoc by lia. rewrite flat_map_app. cbn [flat_map]. rewrite IH; [|lia|rewrite app_length, dec_len by lia; lia].
      rewrite (zrange_nil (n + 1) n) by lia. cbn [combinations map]. rewrite !app_nil_r. apply flat_map_ext_in. intros j Hj. apply zrange_In in Hj.
      rewrite IH; [apply cont_cons|lia|]. rewrite app_length, dec_len by lia. lia.
Qed.
Lemma s_inj I J : Forall (fun x => 0 <= x <= 9) I -> Forall (fun x => 0 <= x <= 9) J -> s_name I = s_name J -> I = J.
Proof. intros A B H. unfold s_name in H. apply app_inv_head in H. rewrite !digits_concat in H by assumption. apply map_add_inj in H. exact H. Qed.
Definition last_leg (n m : Z) : Z := if (n mod 2 =? 0) && (m =? n / 2) then n - 1 else n.
Lemma gen_s_eq n : n <= 9 -> gen_s n = flat_map (fun m => map s_name (combinations (Z.to_nat m) (zrange 1 (last_leg n m + 1)))) (zrange 3 (n / 2 + 1)).
Proof.
  intros N. unfold gen_s. apply flat_map_ext_in. intros m Hm. apply zrange_In in Hm. destruct (Z.to_nat m) as [|k] eqn:K; [lia|]. unfold last_leg.
  assert (L : Z.of_nat (length (lit "s_")) = 2) by reflexivity.
  destruct (Z.eqb_spec (n mod 2) 0) as [E|E]; cbn [andb].
  - destruct (Z.eqb_spec m (n / 2)) as [M|M].
    + rewrite recurse_cut by (auto; lia). replace (n - 1 + 1) with n by lia. reflexivity.
    + rewrite recurse_all by (auto; lia). reflexivity.
  - rewrite recurse_all by (auto; lia). reflexivity.
Qed.
Lemma gen_s_In n t : n <= 9 -> In t (gen_s n) <-> exists I, legset n I /\ 3 <= Z.of_nat (length I) <= n / 2 /\ (n mod 2 = 0 -> Z.of_nat (length I) = n / 2 -> ~ In n I) /\ t = s_name I.
Proof.
  intros N. rewrite gen_s_eq by exact N. split.
  - intros H. apply in_flat_map in H as (m & Hm & H). apply zrange_In in Hm. apply in_map_iff in H as (I & <- & H). exists I. assert (C := H). apply comb_length in C as [L C].
    assert (LL : last_leg n m <= n) by (unfold last_leg; destruct (_ && _); lia).
    split; [split; [exact (comb_sorted _ _ (zrange_sorted _ _) _ H)|apply Forall_forall; intros x Hx; apply C, zrange_In in Hx; lia]|]. split; [lia|]. split; [|reflexivity].
    intros E F Hn. apply C, zrange_In in Hn. unfold last_leg in Hn. rewrite (proj2 (Z.eqb_eq _ _) E), (proj2 (Z.eqb_eq m (n / 2)) ltac:(lia)) in Hn. cbn [andb] in Hn. lia.
  - intros (I & [S F] & L & C & ->). apply in_flat_map. exists (Z.of_nat (length I)). split; [apply zrange_In; lia|]. apply in_map. apply comb_In; auto using zrange_sorted; [lia|].
    intros x Hx. rewrite Forall_forall in F. specialize (F x Hx). apply zrange_In. unfold last_leg. destruct (Z.eqb_spec (n mod 2) 0) as [E|]; cbn [andb]; [|lia].
    destruct (Z.eqb_spec (Z.of_nat (length I)) (n / 2)) as [E'|]; [|lia]. assert (x <> n) by (intros ->; exact (C E E' Hx)). lia.
Qed.
Lemma gen_s_NoDup n : n <= 9 -> NoDup (gen_s n).
Proof.
  intros N. rewrite gen_s_eq by exact N.
  assert (R : forall m I, In I (combinations (Z.to_nat m) (zrange 1 (last_leg n m + 1))) -> length I = Z.to_nat m /\ Forall (fun x => 0 <= x <= 9) I).
  { intros m I H. apply comb_length in H as [L C]. split; [exact L|]. apply Forall_forall. intros x Hx. apply C, zrange_In in Hx.
    assert (LL : last_leg n m <= n) by (unfold last_leg; destruct (_ && _); lia). lia. }
  apply NoDup_flat_map; [apply zrange_NoDup| |].
  - intros m Hm. apply NoDup_map_in; [apply comb_NoDup, zrange_NoDup|]. intros x y Hx Hy E. apply R in Hx as [_ Hx], Hy as [_ Hy]. apply s_inj; assumption.
  - intros m m' t Hm Hm' H H'. apply zrange_In in Hm, Hm'. apply in_map_iff in H as (I & <- & H), H' as (J & E & H'). apply R in H as [L H], H' as [L' H'].
    apply s_inj in E; auto. subst J. lia.
Qed.
Lemma other_length n I J : 0 <= n -> legset n I -> other_legs n I J -> Z.of_nat (length I) + Z.of_nat (length J) = n.
Proof.
  intros Hn [S F] [[S' F'] O]. assert (P : Permutation (I ++ J) (zrange 1 (n + 1))).
  { apply NoDup_Permutation; [apply NoDup_app''; auto using sorted_lt_NoDup|apply zrange_NoDup|].
    - intros x Hx H. rewrite Forall_forall in F. apply (O x (F x Hx)) in H. contradiction.
    - intros x. rewrite in_app_iff, zrange_In. rewrite Forall_forall in F, F'. split.
      + intros [H|H]; [specialize (F x H)|specialize (F' x H)]; lia.
      + intros H. destruct (in_dec Z.eq_dec x I) as [Y|Y]; [left; exact Y|right; apply O; [lia|exact Y]]. }
  apply Permutation_length in P. rewrite app_length in P. unfold zrange in P. rewrite map_length, seq_length in P. lia.
Qed.
Theorem gen_s_once n I J : n <= 9 -> legset n I -> other_legs n I J -> 3 <= Z.of_nat (length I) <= n / 2 ->
  (occurrences (s_name I) (gen_s n) + occurrences (s_name J) (gen_s n) = 1)%nat.
Proof.
  intros N LI O L. assert (n_pos : 0 <= n) by (assert (D := Z.div_mod n 2 ltac:(lia)); assert (M := Z.mod_pos_bound n 2 ltac:(lia)); lia).
  assert (T := other_length n I J n_pos LI O). destruct O as [LJ O].
  assert (D := Z.div_mod n 2 ltac:(lia)). assert (M := Z.mod_pos_bound n 2 ltac:(lia)).
  assert (RI : Forall (fun x => 0 <= x <= 9) I) by (destruct LI as [_ F]; eapply Forall_impl; [|exact F]; cbv beta; intros; lia).
  assert (RJ : Forall (fun x => 0 <= x <= 9) J) by (destruct LJ as [_ F]; eapply Forall_impl; [|exact F]; cbv beta; intros; lia).
  assert (INI : In (s_name I) (gen_s n) <-> (n mod 2 = 0 -> Z.of_nat (length I) = n / 2 -> ~ In n I)).
  { rewrite gen_s_In by exact N. split; [|intros H; exists I; auto]. intros (I' & H1 & H2 & H3 & E). apply s_inj in E; [subst I'; exact H3|exact RI|].
    destruct H1 as [_ F]; eapply Forall_impl; [|exact F]; cbv beta; intros; lia. }
  assert (INJ : In (s_name J) (gen_s n) <-> Z.of_nat (length J) <= n / 2 /\ (n mod 2 = 0 -> Z.of_nat (length J) = n / 2 -> ~ In n J)).
  { rewrite gen_s_In by exact N. split; [|intros [H1 H2]; exists J; repeat split; try apply LJ; auto; lia]. intros (I' & H1 & H2 & H3 & E). apply s_inj in E; [subst I'; split; [lia|exact H3]|exact RJ|].
    destruct H1 as [_ F]; eapply Forall_impl; [|exact F]; cbv beta; intros; lia. }
  destruct (Z_lt_le_dec (Z.of_nat (length I)) (Z.of_nat (length J))) as [LT|GE].
  - rewrite occ_one, occ_zero; auto using gen_s_NoDup; [rewrite INJ|rewrite INI]; intros; lia.
  - assert (n mod 2 = 0 /\ Z.of_nat (length I) = n / 2 /\ Z.of_nat (length J) = n / 2) as (E1 & E2 & E3) by lia.
    destruct (in_dec Z.eq_dec n I) as [Y|Y].
    + rewrite occ_zero, occ_one; auto using gen_s_NoDup; [rewrite INJ; split; [lia|intros _ _ H; apply (O n ltac:(lia)) in H; contradiction]|rewrite INI; intros H; exact (H E1 E2 Y)].
    + rewrite occ_one, occ_zero; auto using gen_s_NoDup; [rewrite INJ; intros [_ H]; apply (H E1 E3), O; [lia|exact Y]|rewrite INI; auto].
Qed.
Theorem gen_s_only n t : n <= 9 -> In t (gen_s n) -> exists I, legset n I /\ 3 <= Z.of_nat (length I) <= n / 2 /\ t = s_name I.
Proof. intros N H. apply gen_s_In in H as (I & A & B & _ & E); [|exact N]. exists I. auto. Qed.
