(* det is the determinant: C29; alternating and multilinear: C28. *)
From Coq Require Import List ZArith Bool Arith Lia Ring Field Permutation Sorted.
From Verif Require Import Base Fld Det DetSpec.
Import ListNotations.

Section Lists.
(* remove position k *)
Fixpoint del (k : nat) (l : list nat) {struct l} : list nat :=
  match l with [] => [] | x :: l' => match k with O => l' | S k' => x :: del k' l' end end.
Lemma del_app l1 x l2 : del (length l1) (l1 ++ x :: l2) = l1 ++ l2.
Proof. induction l1; cbn; congruence. Qed.
Lemma del_length l : forall k, k < length l -> S (length (del k l)) = length l.
Proof. induction l as [|x l IH]; intros [|k] H; cbn in *; try lia. rewrite IH; lia. Qed.
Lemma nth_del l d : forall k j, nth j (del k l) d = nth (if j <? k then j else S j) l d.
Proof.
  induction l as [|x l IH]; intros k j.
  - change (del k []) with (@nil nat). rewrite !nth_overflow by apply Nat.le_0_l. reflexivity.
  - destruct k as [|k]; [destruct j; reflexivity|]. destruct j as [|j]; [reflexivity|]. cbn [del nth]. rewrite IH.
    change (S j <? S k) with (j <? k). destruct (j <? k); reflexivity.
Qed.
Lemma nth_split_lt (l : list nat) d k : k < length l -> exists l1 l2, l = l1 ++ nth k l d :: l2 /\ length l1 = k.
Proof. intros H. destruct (nth_split l d H) as (l1 & l2 & E & L). eauto. Qed.
(* all arrangements of a list, through the position of the first element *)
Fixpoint permsn (n : nat) (l : list nat) : list (list nat) :=
  match n with
  | O => [[]]
  | S n' => flat_map (fun k => map (cons (nth k l 0)) (permsn n' (del k l))) (seq 0 (length l))
  end.
Lemma permsn_In n : forall l, length l = n -> forall t, In t (permsn n l) <-> Permutation t l.
Proof.
  induction n as [|n IH]; intros l L t.
  - destruct l; [|discriminate]. cbn. split; [intros [<-|[]]; constructor|]. intros H. left. symmetry. apply Permutation_nil. symmetry; exact H.
  - cbn [permsn]. rewrite in_flat_map. split.
    + intros (k & Hk & Ht). apply in_seq in Hk. apply in_map_iff in Ht as (t' & <- & Ht').
      destruct (nth_split_lt l 0 k) as (l1 & l2 & E & L1); [lia|]. set (x := nth k l 0) in *.
      apply IH in Ht'; [|pose proof (del_length l k); lia]. rewrite E, <- L1, del_app in Ht'. rewrite E.
      transitivity (x :: l1 ++ l2); [constructor; exact Ht'|apply Permutation_middle].
    + intros P. destruct t as [|x t]; [apply Permutation_nil in P; subst; discriminate|].
      assert (I : In x l) by (apply (Permutation_in x P); left; reflexivity).
      apply in_split in I as (l1 & l2 & E). exists (length l1). split.
      * apply in_seq. rewrite E, app_length. cbn. lia.
      * rewrite E. rewrite app_nth2, Nat.sub_diag by lia. cbn [nth]. apply in_map. rewrite del_app. apply IH.
        -- rewrite E, app_length in L. cbn in L. rewrite app_length. lia.
        -- rewrite E in P. apply (Permutation_cons_app_inv _ _ P).
Qed.
Lemma NoDup_app' {A} (l l' : list A) : NoDup l -> NoDup l' -> (forall x, In x l -> ~ In x l') -> NoDup (l ++ l').
Proof.
  induction 1 as [|x l N D IH]; cbn; intros D' H; [exact D'|]. constructor; [|apply IH; auto].
  rewrite in_app_iff. intros [I|I]; [contradiction|]. apply (H x); auto.
Qed.
Lemma NoDup_flat_map {A B} (f : A -> list B) l : NoDup l -> (forall x, In x l -> NoDup (f x)) ->
  (forall x y z, In x l -> In y l -> In z (f x) -> In z (f y) -> x = y) -> NoDup (flat_map f l).
Proof.
  induction 1 as [|x l N D IH]; cbn; intros H1 H2; [constructor|].
  apply NoDup_app'.
  - apply H1; auto.
  - apply IH; [intros; apply H1; auto|]. intros y z w Hy Hz Hw Hw'. apply (H2 y z w); auto.
  - intros z Hz Hz'. apply in_flat_map in Hz' as (y & Hy & Hz'). apply N. rewrite (H2 x y z); auto.
Qed.
Lemma permsn_NoDup n : forall l, length l = n -> NoDup l -> NoDup (permsn n l).
Proof.
  induction n as [|n IH]; intros l L D; [repeat constructor; intros []|]. cbn [permsn].
  apply NoDup_flat_map; [apply seq_NoDup| |].
  - intros k Hk. apply in_seq in Hk. apply FinFun.Injective_map_NoDup; [intros a b E; congruence|]. apply IH.
    + pose proof (del_length l k); lia.
    + destruct (nth_split_lt l 0 k) as (l1 & l2 & E & L1); [lia|]. rewrite E in D. rewrite E, <- L1, del_app. apply (NoDup_remove_1 _ _ _ D).
  - intros j k t Hj Hk Ht Ht'. apply in_seq in Hj. apply in_seq in Hk. apply in_map_iff in Ht as (u & <- & _). apply in_map_iff in Ht' as (u' & E & _).
    injection E as E _. apply (proj1 (NoDup_nth l 0) D); lia.
Qed.
End Lists.

Section Thm.
Context {K : Fld}.
Open Scope fld_scope.
Add Field Kd : (fth K).

Definition fsum {A} (f : A -> K) (l : list A) : K := fold_right (fun x acc => f x + acc) 0 l.
Lemma fsum_cons {A} (f : A -> K) x l : fsum f (x :: l) = f x + fsum f l.
Proof. reflexivity. Qed.
Lemma fsum_nil {A} (f : A -> K) : fsum f [] = 0.
Proof. reflexivity. Qed.
Lemma lsum_fsum {A} (f : A -> K) l : lsum f l = fsum f l.
Proof.
  unfold lsum. assert (H : forall acc, fold_left (fun acc c => acc + f c) l acc = acc + fsum f l).
  { induction l as [|x l IH]; intros acc; cbn [fold_left]; rewrite ?fsum_nil, ?fsum_cons; [ring|]. rewrite IH. ring. }
  rewrite H. ring.
Qed.
Lemma fsum_app {A} (f : A -> K) l l' : fsum f (l ++ l') = fsum f l + fsum f l'.
Proof. induction l as [|x l IH]; cbn [app]; rewrite ?fsum_nil, ?fsum_cons; [ring|]. rewrite IH. ring. Qed.
Lemma fsum_ext {A} (f g : A -> K) l : (forall x, In x l -> f x = g x) -> fsum f l = fsum g l.
Proof. induction l as [|x l IH]; intros H; [reflexivity|]. rewrite !fsum_cons, H, IH; auto using in_eq, in_cons. Qed.
Lemma fsum_map {A B} (f : B -> K) (g : A -> B) l : fsum f (map g l) = fsum (fun x => f (g x)) l.
Proof. induction l as [|x l IH]; [reflexivity|]. cbn [map]. rewrite !fsum_cons, IH. reflexivity. Qed.
Lemma fsum_flat {A B} (f : B -> K) (g : A -> list B) l : fsum f (flat_map g l) = fsum (fun x => fsum f (g x)) l.
Proof. induction l as [|x l IH]; [reflexivity|]. cbn [flat_map]. rewrite fsum_app, IH. reflexivity. Qed.
Lemma fsum_scale {A} (c : K) (f : A -> K) l : fsum (fun x => c * f x) l = c * fsum f l.
Proof. induction l as [|x l IH]; rewrite ?fsum_nil, ?fsum_cons; [ring|]. rewrite IH. ring. Qed.
Lemma fsum_add {A} (f g : A -> K) l : fsum (fun x => f x + g x) l = fsum f l + fsum g l.
Proof. induction l as [|x l IH]; rewrite ?fsum_nil, ?fsum_cons; [ring|]. rewrite IH. ring. Qed.
Lemma fsum_perm {A} (f : A -> K) l l' : Permutation l l' -> fsum f l = fsum f l'.
Proof. induction 1; rewrite ?fsum_nil, ?fsum_cons; try congruence. ring. Qed.
Lemma fsum_zero {A} (f : A -> K) l : (forall x, In x l -> f x = 0) -> fsum f l = 0.
Proof. induction l as [|x l IH]; intros H; [reflexivity|]. rewrite fsum_cons, H, IH; auto using in_eq, in_cons. ring. Qed.
Lemma leibniz_fsum P (m : mat K) : leibniz P m = fsum (fun l => sgn l * diag m 0 l) P.
Proof. reflexivity. Qed.

Lemma det_SS' n (m : mat K) : det (S (S n)) m =
  fsum (fun col => alt col * m 0%nat col * det (S n) (minor m col)) (seq 0 (S (S n))).
Proof. rewrite <- lsum_fsum. reflexivity. Qed.
Lemma det_ext_lt n : forall (m m' : mat K), (forall i j, i < n -> j < n -> m i j = m' i j)%nat -> det n m = det n m'.
Proof.
  induction n as [|n IH]; intros m m' H; [reflexivity|]. destruct n as [|n]; [apply H; lia|].
  rewrite !det_SS'. apply fsum_ext. intros c Hc. apply in_seq in Hc. rewrite H by lia.
  rewrite (IH (minor m c) (minor m' c)); [reflexivity|]. intros i j Hi Hj. unfold minor. apply H; [lia|]. destruct (j <? c)%nat; lia.
Qed.

(* Laplace expansion on the columns of a list *)
Fixpoint lap (n r : nat) (m : mat K) (cols : list nat) : K :=
  match n with
  | O => 1
  | S n' => fsum (fun k => alt k * m r (nth k cols 0%nat) * lap n' (S r) m (del k cols)) (seq 0 (length cols))
  end.
Lemma lap_S n r (m : mat K) cols : lap (S n) r m cols =
  fsum (fun k => alt k * m r (nth k cols 0%nat) * lap n (S r) m (del k cols)) (seq 0 (length cols)).
Proof. reflexivity. Qed.
Lemma det_lap n : forall r (m : mat K) cols, length cols = S n ->
  det (S n) (fun i j => m (r + i)%nat (nth j cols 0%nat)) = lap (S n) r m cols.
Proof.
  induction n as [|n IH]; intros r m cols L.
  - cbn [det lap]. rewrite L. unfold fsum, alt; cbn. rewrite Nat.add_0_r. ring.
  - rewrite det_SS', lap_S, L. apply fsum_ext. intros k Hk. apply in_seq in Hk. rewrite Nat.add_0_r. f_equal.
    rewrite <- (IH (S r) m (del k cols)).
    + apply det_ext_lt. intros i j _ _. unfold minor. rewrite nth_del. f_equal. lia.
    + pose proof (del_length cols k). lia.
Qed.
Lemma alt_add a b : alt (a + b) = alt a * (alt b : K).
Proof. unfold alt. rewrite Nat.even_add. destruct (Nat.even a), (Nat.even b); cbn; ring. Qed.
Lemma filter_perm_length (f : nat -> bool) l l' : Permutation l l' -> length (filter f l) = length (filter f l').
Proof. induction 1; cbn; try congruence; repeat (destruct (f _); cbn; try congruence). Qed.
Lemma sorted_filter l1 x l2 : StronglySorted lt (l1 ++ x :: l2) -> length (filter (fun y => y <? x)%nat (l1 ++ l2)) = length l1.
Proof.
  intros H. rewrite filter_app, app_length.
  assert (A : filter (fun y => y <? x)%nat l1 = l1).
  { induction l1 as [|y l1 IH]; cbn [filter app] in *; [reflexivity|]. inversion H as [|? ? Hs Hf]; subst.
    assert (y < x)%nat. { apply (proj1 (Forall_forall _ _) Hf). apply in_or_app. right. left. reflexivity. }
    destruct (Nat.ltb_spec y x); [|lia]. rewrite IH by exact Hs. reflexivity. }
  assert (B : filter (fun y => y <? x)%nat l2 = []).
  { assert (Hx : StronglySorted lt (x :: l2)). { clear - H. induction l1; cbn in *; [exact H|]. apply IHl1. inversion H; assumption. }
    inversion Hx as [|? ? Hs Hf]; subst. clear - Hf. induction l2 as [|y l2 IH]; cbn [filter]; [reflexivity|]. inversion Hf; subst.
    destruct (Nat.ltb_spec y x); [lia|]. apply IH. assumption. }
  rewrite A, B. cbn. lia.
Qed.
Lemma sorted_del l1 x l2 : StronglySorted lt (l1 ++ x :: l2) -> StronglySorted lt (l1 ++ l2).
Proof.
  induction l1 as [|y l1 IH]; cbn; intros H; inversion H as [|? ? Hs Hf]; subst; [exact Hs|]. constructor; [apply IH, Hs|].
  apply Forall_forall. intros z Hz. apply (proj1 (Forall_forall _ _) Hf). apply in_app_iff in Hz as [Hz|Hz]; apply in_app_iff; cbn; auto.
Qed.
Lemma sgn_cons x l : sgn (x :: l) = alt (length (filter (fun y => y <? x)%nat l)) * (sgn l : K).
Proof. unfold sgn. cbn [invs]. exact (alt_add _ _). Qed.
Lemma lap_perms n : forall r (m : mat K) cols, length cols = n -> StronglySorted lt cols ->
  lap n r m cols = fsum (fun l => sgn l * diag m r l) (permsn n cols).
Proof.
  induction n as [|n IH]; intros r m cols L St.
  - cbn. unfold sgn. cbn. ring.
  - rewrite lap_S. cbn [permsn]. rewrite fsum_flat. apply fsum_ext. intros k Hk. apply in_seq in Hk.
    destruct (nth_split_lt cols 0%nat k) as (l1 & l2 & E & L1); [lia|]. set (x := nth k cols 0%nat) in *.
    assert (Ed : del k cols = l1 ++ l2) by (rewrite E, <- L1; apply del_app).
    rewrite Ed, IH.
    + rewrite fsum_map, <- fsum_scale. apply fsum_ext. intros t Ht. apply permsn_In in Ht.
      2:{ rewrite E, app_length in L. cbn in L. rewrite app_length. lia. }
      rewrite sgn_cons. cbn [diag]. rewrite (filter_perm_length _ _ _ Ht), sorted_filter, L1 by (rewrite <- E; exact St). ring.
    + rewrite E, app_length in L. cbn in L. rewrite app_length. lia.
    + rewrite E in St. apply (sorted_del _ _ _ St).
Qed.
Lemma seq_sorted n : forall a, StronglySorted lt (seq a n).
Proof.
  induction n as [|n IH]; intros a; cbn; constructor; [apply IH|]. apply Forall_forall. intros x Hx. apply in_seq in Hx. lia.
Qed.
Theorem det_leibniz n (m : mat K) P : (1 <= n)%nat -> all_perms n P -> det n m = leibniz P m.
Proof.
  intros Hn [D I]. destruct n as [|n]; [lia|].
  rewrite leibniz_fsum. rewrite (fsum_perm _ P (permsn (S n) (seq 0 (S n)))).
  - rewrite <- lap_perms by (rewrite ?seq_length; auto using seq_sorted). rewrite <- det_lap by (rewrite seq_length; reflexivity).
    apply det_ext_lt. intros i j Hi Hj. rewrite seq_nth by lia. reflexivity.
  - apply NoDup_Permutation; [exact D|apply permsn_NoDup; [apply seq_length|apply seq_NoDup]|].
    intros l. rewrite I, permsn_In by apply seq_length. reflexivity.
Qed.
Lemma perms_exist n : exists P, all_perms n P.
Proof.
  exists (permsn n (seq 0 n)). split; [apply permsn_NoDup; [apply seq_length|apply seq_NoDup]|].
  intros l. apply permsn_In, seq_length.
Qed.

(* ---- exchanging two adjacent rows ---- *)
Definition tau (k : nat) (x : nat) : nat := if x =? k then S k else if x =? S k then k else x.
Lemma tau_tau k x : tau k (tau k x) = x.
Proof.
  unfold tau. destruct (Nat.eqb_spec x k), (Nat.eqb_spec x (S k));
    repeat match goal with |- context [(?a =? ?b)%nat] => destruct (Nat.eqb_spec a b) end; lia.
Qed.
Fixpoint swp (k : nat) (l : list nat) : list nat :=
  match k, l with
  | O, x :: y :: l' => y :: x :: l'
  | S k', x :: l' => x :: swp k' l'
  | _, _ => l
  end.
Lemma swp_swp k : forall l, swp k (swp k l) = l.
Proof. induction k as [|k IH]; intros [|x [|y l]]; cbn; try reflexivity; rewrite IH; reflexivity. Qed.
Lemma swp_perm k : forall l, Permutation (swp k l) l.
Proof. induction k as [|k IH]; intros [|x [|y l]]; cbn; auto; try constructor; apply IH. Qed.
Lemma diag_swp k : forall r (m : mat K) l, (S k < length l)%nat ->
  diag m r (swp k l) = diag (fun i j => m (tau (r + k) i) j) r l.
Proof.
  assert (Ext : forall l r (m m' : mat K), (forall i j, (r <= i)%nat -> m i j = m' i j) -> diag m r l = diag m' r l).
  { induction l as [|x l IH]; intros r m m' H; cbn; [reflexivity|]. rewrite H by lia. f_equal. apply IH. intros; apply H; lia. }
  induction k as [|k IH]; intros r m l H.
  - destruct l as [|x [|y l]]; cbn in H; try lia. cbn [swp diag]. rewrite Nat.add_0_r.
    replace (tau r r) with (S r) by (unfold tau; rewrite Nat.eqb_refl; reflexivity).
    replace (tau r (S r)) with r by (unfold tau; destruct (Nat.eqb_spec (S r) r); [lia|rewrite Nat.eqb_refl; reflexivity]).
    rewrite (Ext l (S (S r)) m (fun i j => m (tau r i) j)); [ring|].
    intros i j Hi. unfold tau. destruct (Nat.eqb_spec i r), (Nat.eqb_spec i (S r)); try lia; reflexivity.
  - destruct l as [|x l]; cbn in H; [lia|]. cbn [swp diag]. rewrite IH by lia. f_equal.
    + f_equal. unfold tau. destruct (Nat.eqb_spec r (r + S k)), (Nat.eqb_spec r (S (r + S k))); try lia; reflexivity.
    + apply Ext. intros i j _. f_equal. f_equal. lia.
Qed.
Lemma sgn_swp k : forall l, NoDup l -> (S k < length l)%nat -> sgn (swp k l) = - (sgn l : K).
Proof.
  induction k as [|k IH]; intros l D H.
  - destruct l as [|x [|y l]]; cbn in H; try lia. cbn [swp]. rewrite !sgn_cons. cbn [filter].
    assert (x <> y). { inversion D as [|? ? Hn _]; subst. intros ->. apply Hn. left; reflexivity. }
    destruct (Nat.ltb_spec x y), (Nat.ltb_spec y x); try lia; cbn [length].
    + change (S (length (filter (fun y0 : nat => (y0 <? y)%nat) l))) with (1 + length (filter (fun y0 : nat => (y0 <? y)%nat) l))%nat.
      rewrite alt_add. unfold alt at 1. cbn. ring.
    + change (S (length (filter (fun y0 : nat => (y0 <? x)%nat) l))) with (1 + length (filter (fun y0 : nat => (y0 <? x)%nat) l))%nat.
      rewrite alt_add. unfold alt at 3. cbn. ring.
  - destruct l as [|x l]; cbn in H; [lia|]. cbn [swp]. rewrite !sgn_cons, IH by (try lia; inversion D; assumption).
    rewrite (filter_perm_length _ _ _ (swp_perm k l)). ring.
Qed.
Lemma NoDup_map_inj {A B} (f : A -> B) l : (forall x y, f x = f y -> x = y) -> NoDup l -> NoDup (map f l).
Proof. intros H. apply FinFun.Injective_map_NoDup. exact H. Qed.
Lemma det_row_swap n k (m : mat K) : (S k < n)%nat -> det n (fun i j => m (tau k i) j) = - det n m.
Proof.
  intros H. destruct (perms_exist n) as (P & HP). rewrite !(det_leibniz n _ P) by (auto; lia). rewrite !leibniz_fsum.
  destruct HP as [D I].
  rewrite (fsum_ext (fun l => sgn l * diag (fun i j => m (tau k i) j) 0 l) (fun l => - (1) * (fun t => sgn t * diag m 0 t) (swp k l))).
  - rewrite (fsum_scale (- (1))). rewrite <- (fsum_map (fun t => sgn t * diag m 0 t) (swp k)).
    rewrite (fsum_perm _ (map (swp k) P) P); [ring|].
    apply NoDup_Permutation; [apply NoDup_map_inj; [intros x y E; rewrite <- (swp_swp k x), E; apply swp_swp|exact D]|exact D|].
    intros l. rewrite in_map_iff. split.
    + intros (t & <- & Ht). apply I. apply I in Ht. rewrite swp_perm. exact Ht.
    + intros Hl. exists (swp k l). split; [apply swp_swp|]. apply I. apply I in Hl. rewrite swp_perm. exact Hl.
  - intros l Hl. apply I in Hl. pose proof (Permutation_length Hl) as L. rewrite seq_length in L. cbv beta.
    rewrite sgn_swp, diag_swp by (try lia; apply (Permutation_NoDup (Permutation_sym Hl)), seq_NoDup). cbn [Nat.add]. ring.
Qed.
(* ---- exchanging two adjacent columns ---- *)
Lemma diag_map (f : nat -> nat) l : forall r (m : mat K), diag m r (map f l) = diag (fun i j => m i (f j)) r l.
Proof. induction l as [|x l IH]; intros r m; cbn; [reflexivity|]. rewrite IH. reflexivity. Qed.
Lemma filter_tau_other k x l : x <> k -> x <> S k ->
  length (filter (fun y => y <? x)%nat (map (tau k) l)) = length (filter (fun y => y <? x)%nat l).
Proof.
  intros H1 H2. induction l as [|y l IH]; cbn [filter map]; [reflexivity|].
  replace (tau k y <? x)%nat with (y <? x)%nat; [destruct (y <? x)%nat; cbn [length]; rewrite IH; reflexivity|].
  unfold tau. destruct (Nat.eqb_spec y k), (Nat.eqb_spec y (S k)); subst; try lia; try reflexivity;
    repeat match goal with |- context [(?a <? ?b)%nat] => destruct (Nat.ltb_spec a b) end; lia.
Qed.
Lemma filter_tau_k k l : ~ In k l -> 
  length (filter (fun y => y <? S k)%nat (map (tau k) l)) = (length (filter (fun y => y =? S k)%nat l) + length (filter (fun y => y <? k)%nat l))%nat.
Proof.
  induction l as [|y l IH]; cbn [map filter In]; intros H; [reflexivity|].
  assert (y <> k) by tauto. assert (~ In k l) by tauto. specialize (IH ltac:(assumption)).
  unfold tau at 1. destruct (Nat.eqb_spec y k); [lia|]. destruct (Nat.eqb_spec y (S k)).
  - destruct (Nat.ltb_spec k (S k)); [|lia]. destruct (Nat.ltb_spec y k); [lia|]. cbn [length]. lia.
  - destruct (Nat.ltb_spec y (S k)), (Nat.ltb_spec y k); cbn [length]; lia.
Qed.
Lemma filter_tau_Sk k l : ~ In (S k) l ->
  (length (filter (fun y => y =? k)%nat l) + length (filter (fun y => y <? k)%nat (map (tau k) l)) = length (filter (fun y => y <? S k)%nat l))%nat.
Proof.
  induction l as [|y l IH]; cbn [map filter In]; intros H; [reflexivity|].
  assert (y <> S k) by tauto. specialize (IH ltac:(tauto)).
  unfold tau at 1. destruct (Nat.eqb_spec y k).
  - destruct (Nat.ltb_spec (S k) k); [lia|]. destruct (Nat.ltb_spec y (S k)); [|lia]. cbn [length]. lia.
  - destruct (Nat.eqb_spec y (S k)); [lia|]. destruct (Nat.ltb_spec y (S k)), (Nat.ltb_spec y k); cbn [length]; lia.
Qed.
Lemma count_NoDup x l : NoDup l -> length (filter (fun y => y =? x)%nat l) = if in_dec Nat.eq_dec x l then 1%nat else 0%nat.
Proof.
  induction 1 as [|y l N D IH]; cbn [filter]; [destruct in_dec as [[]|]; reflexivity|].
  destruct (Nat.eqb_spec y x).
  - subst. cbn [length]. rewrite IH. destruct (in_dec Nat.eq_dec x l); [contradiction|]. destruct (in_dec Nat.eq_dec x (x :: l)) as [_|H]; [reflexivity|].
    exfalso; apply H; left; reflexivity.
  - rewrite IH. destruct (in_dec Nat.eq_dec x l), (in_dec Nat.eq_dec x (y :: l)) as [H|H]; auto.
    + exfalso; apply H; right; assumption.
    + destruct H; [congruence|contradiction].
Qed.
Lemma sgn_tau k l : NoDup l ->
  sgn (map (tau k) l) = (if in_dec Nat.eq_dec k l then if in_dec Nat.eq_dec (S k) l then - (sgn l : K) else sgn l else sgn l).
Proof.
  induction 1 as [|x l N D IH]; [reflexivity|]. cbn [map]. rewrite !sgn_cons.
  destruct (Nat.eq_dec x k) as [->|Nk]; [|destruct (Nat.eq_dec x (S k)) as [->|NSk]].
  - replace (tau k k) with (S k) by (unfold tau; rewrite Nat.eqb_refl; reflexivity).
    rewrite filter_tau_k, count_NoDup by assumption. rewrite IH.
    destruct (in_dec Nat.eq_dec k l); [contradiction|]. destruct (in_dec Nat.eq_dec k (k :: l)) as [_|H]; [|exfalso; apply H; left; reflexivity].
    destruct (in_dec Nat.eq_dec (S k) l) as [I|I]; destruct (in_dec Nat.eq_dec (S k) (k :: l)) as [J|J].
    + rewrite alt_add. unfold alt at 1. cbn. ring.
    + exfalso; apply J; right; exact I.
    + destruct J; [lia|contradiction].
    + cbn [Nat.add]. reflexivity.
  - replace (tau k (S k)) with k by (unfold tau; destruct (Nat.eqb_spec (S k) k); [lia|rewrite Nat.eqb_refl; reflexivity]).
    pose proof (filter_tau_Sk k l N) as F. rewrite count_NoDup in F by assumption. rewrite <- F. rewrite IH.
    destruct (in_dec Nat.eq_dec (S k) l); [contradiction|]. destruct (in_dec Nat.eq_dec (S k) (S k :: l)) as [_|H]; [|exfalso; apply H; left; reflexivity].
    destruct (in_dec Nat.eq_dec k l) as [I|I]; destruct (in_dec Nat.eq_dec k (S k :: l)) as [J|J].
    + rewrite alt_add. unfold alt at 2. cbn. ring.
    + exfalso; apply J; right; exact I.
    + destruct J; [lia|contradiction].
    + cbn [Nat.add]. reflexivity.
  - replace (tau k x) with x by (unfold tau; destruct (Nat.eqb_spec x k); [lia|destruct (Nat.eqb_spec x (S k)); [lia|reflexivity]]).
    rewrite filter_tau_other by assumption. rewrite IH.
    destruct (in_dec Nat.eq_dec k l) as [I|I]; destruct (in_dec Nat.eq_dec k (x :: l)) as [J|J];
    try (destruct (in_dec Nat.eq_dec (S k) l) as [I'|I']; destruct (in_dec Nat.eq_dec (S k) (x :: l)) as [J'|J']);
    try ring; exfalso; cbn in *; firstorder congruence.
Qed.
Lemma det_col_swap n k (m : mat K) : (S k < n)%nat -> det n (fun i j => m i (tau k j)) = - det n m.
Proof.
  intros H. destruct (perms_exist n) as (P & HP). rewrite !(det_leibniz n _ P) by (auto; lia). rewrite !leibniz_fsum.
  destruct HP as [D I].
  rewrite (fsum_ext (fun l => sgn l * diag (fun i j => m i (tau k j)) 0 l) (fun l => - (1) * (fun t => sgn t * diag m 0 t) (map (tau k) l))).
  - rewrite (fsum_scale (- (1))). rewrite <- (fsum_map (fun t => sgn t * diag m 0 t) (map (tau k))).
    assert (TT : forall l, map (tau k) (map (tau k) l) = l).
    { intros l. rewrite map_map. rewrite <- (map_id l) at 2. apply map_ext. apply tau_tau. }
    assert (TP : Permutation (map (tau k) (seq 0 n)) (seq 0 n)).
    { apply NoDup_Permutation; [apply NoDup_map_inj; [intros x y E; rewrite <- (tau_tau k x), E; apply tau_tau|apply seq_NoDup]|apply seq_NoDup|].
      intros x. rewrite in_map_iff, in_seq. split.
      - intros (y & <- & Hy). apply in_seq in Hy. unfold tau. destruct (y =? k)%nat, (y =? S k)%nat; lia.
      - intros Hx. exists (tau k x). split; [apply tau_tau|]. apply in_seq. unfold tau. destruct (x =? k)%nat, (x =? S k)%nat; lia. }
    rewrite (fsum_perm _ (map (map (tau k)) P) P); [ring|].
    apply NoDup_Permutation; [apply NoDup_map_inj; [intros x y E; rewrite <- (TT x), E; apply TT|exact D]|exact D|].
    intros l. rewrite in_map_iff. split.
    + intros (t & <- & Ht). apply I. apply I in Ht. rewrite Ht. exact TP.
    + intros Hl. exists (map (tau k) l). split; [apply TT|]. apply I. apply I in Hl. rewrite Hl. exact TP.
  - intros l Hl. apply I in Hl. cbv beta. rewrite diag_map.
    rewrite sgn_tau by (apply (Permutation_NoDup (Permutation_sym Hl)), seq_NoDup).
    destruct (in_dec Nat.eq_dec k l) as [_|J]; [|exfalso; apply J, (Permutation_in _ (Permutation_sym Hl)), in_seq; lia].
    destruct (in_dec Nat.eq_dec (S k) l) as [_|J]; [|exfalso; apply J, (Permutation_in _ (Permutation_sym Hl)), in_seq; lia]. ring.
Qed.
(* ---- linearity ---- *)
Lemma det_row_lin n : forall r (m a b : mat K) (x y : K), (r < n)%nat ->
  (forall i j, i <> r -> a i j = m i j /\ b i j = m i j) -> (forall j, m r j = x * a r j + y * b r j) ->
  det n m = x * det n a + y * det n b.
Proof.
  induction n as [|n IH]; intros r m a b x y H E F; [lia|]. destruct n as [|n].
  - assert (r = 0%nat) by lia. subst. cbn. apply F.
  - rewrite !det_SS', <- !fsum_scale, <- fsum_add. apply fsum_ext. intros c Hc. apply in_seq in Hc.
    destruct r as [|r].
    + rewrite F. rewrite (det_ext_lt (S n) (minor a c) (minor m c)), (det_ext_lt (S n) (minor b c) (minor m c)); [ring|..];
        intros i j _ _; unfold minor; apply E; lia.
    + rewrite (IH r (minor m c) (minor a c) (minor b c) x y); [|lia|intros i j Hi; unfold minor; apply E; lia|intros j; unfold minor; apply F].
      destruct (E 0%nat c ltac:(lia)) as [-> ->]. ring.
Qed.
Lemma det_col_lin n : forall r (m a b : mat K) (x y : K), (r < n)%nat ->
  (forall i j, j <> r -> a i j = m i j /\ b i j = m i j) -> (forall i, m i r = x * a i r + y * b i r) ->
  det n m = x * det n a + y * det n b.
Proof.
  induction n as [|n IH]; intros r m a b x y H E F; [lia|]. destruct n as [|n].
  - assert (r = 0%nat) by lia. subst. cbn. apply F.
  - rewrite !det_SS', <- !fsum_scale, <- fsum_add. apply fsum_ext. intros c Hc. apply in_seq in Hc.
    destruct (Nat.eq_dec c r) as [->|Ncr].
    + rewrite F. rewrite (det_ext_lt (S n) (minor a r) (minor m r)), (det_ext_lt (S n) (minor b r) (minor m r)); [ring|..];
        intros i j _ _; unfold minor; apply E; destruct (Nat.ltb_spec j r); lia.
    + destruct (E 0%nat c Ncr) as [-> ->].
      set (r' := if (r <? c)%nat then r else pred r).
      rewrite (IH r' (minor m c) (minor a c) (minor b c) x y); [ring|..].
      * unfold r'. destruct (Nat.ltb_spec r c); lia.
      * intros i j Hj. unfold minor. apply E. unfold r' in Hj. destruct (Nat.ltb_spec j c), (Nat.ltb_spec r c); lia.
      * intros i. unfold minor. replace (if (r' <? c)%nat then r' else S r') with r; [apply F|].
        unfold r'. destruct (Nat.ltb_spec r c); repeat match goal with |- context [(?p <? ?q)%nat] => destruct (Nat.ltb_spec p q) end; lia.
Qed.
End Thm.
