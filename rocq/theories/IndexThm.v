(* Proofs about Index.v *)
From Coq Require Import List ZArith Bool Lia Sorted Permutation.
From Verif Require Import Base Index.
Import ListNotations.
Open Scope Z_scope.

Section L.
Context {A : Type}.
Implicit Types l : list A.

Lemma rebase_in l i : 1 <= i <= zlen l -> rebase (zlen l) i = Ok (i - 1).
Proof.
  intros H. unfold rebase.
  destruct (Z.ltb_spec i 1); [lia|].
  destruct (Z.ltb_spec 0 i); [|lia]. destruct (Z.ltb_spec i (zlen l + 1)); [|lia]. reflexivity.
Qed.
Lemma rebase_out l i : ~ (1 <= i <= zlen l) -> rebase (zlen l) i = Err IndexError.
Proof.
  intros H. unfold rebase.
  destruct (Z.ltb_spec i 1); [reflexivity|].
  destruct (Z.ltb_spec 0 i); cbn; [|lia]. destruct (Z.ltb_spec i (zlen l + 1)); cbn; [lia|].
  destruct (Z.ltb_spec (zlen l) i); [reflexivity|lia].
Qed.
Lemma list_set_app l1 l2 x v : list_set (l1 ++ x :: l2) (length l1) v = Ok (l1 ++ v :: l2).
Proof. induction l1 as [|y l1 IH]; cbn; [reflexivity|]. rewrite IH. reflexivity. Qed.
Lemma list_del_app l1 l2 (x : A) : list_del (l1 ++ x :: l2) (length l1) = Ok (l1 ++ l2).
Proof. induction l1 as [|y l1 IH]; cbn; [reflexivity|]. rewrite IH. reflexivity. Qed.
Lemma list_insert_app l1 l2 (v : A) : list_insert (l1 ++ l2) (length l1) v = l1 ++ v :: l2.
Proof.
  induction l1 as [|y l1 IH]; cbn; [destruct l2; reflexivity|]. rewrite IH. reflexivity.
Qed.

Lemma split_at l i : 1 <= i <= zlen l ->
  exists l1 x l2, l = l1 ++ x :: l2 /\ zlen l1 = i - 1.
Proof.
  unfold zlen. intros H. exists (firstn (Z.to_nat (i - 1)) l).
  destruct (nth_error l (Z.to_nat (i - 1))) as [x|] eqn:E.
  - apply nth_error_split in E as (l1 & l2 & -> & E). exists x, l2.
    rewrite <- E, firstn_app, Nat.sub_diag, firstn_all, app_nil_r. cbn. split; [reflexivity|lia].
  - apply nth_error_None in E. lia.
Qed.

Lemma index_in l1 x l2 i v : zlen l1 = i - 1 ->
  getitem (l1 ++ x :: l2) i = Ok x /\
  setitem (l1 ++ x :: l2) i v = Ok (l1 ++ v :: l2) /\
  delitem (l1 ++ x :: l2) i = Ok (l1 ++ l2) /\
  insert (l1 ++ x :: l2) i v = Ok (l1 ++ v :: x :: l2).
Proof.
  intros H. assert (R : rebase (zlen (l1 ++ x :: l2)) i = Ok (i - 1)).
  { apply rebase_in. unfold zlen in *. rewrite app_length. cbn. lia. }
  assert (N : Z.to_nat (i - 1) = length l1) by (unfold zlen in H; lia).
  unfold getitem, setitem, delitem, insert. rewrite R. cbn [rbind]. unfold list_get. rewrite N.
  rewrite nth_error_app2, Nat.sub_diag by lia. cbn.
  rewrite list_set_app, list_del_app, list_insert_app. auto.
Qed.
Lemma index_out l i v : ~ (1 <= i <= zlen l) ->
  getitem l i = Err IndexError /\ setitem l i v = Err IndexError /\
  delitem l i = Err IndexError /\ insert l i v = Err IndexError.
Proof.
  intros H. unfold getitem, setitem, delitem, insert. rewrite rebase_out by exact H. auto.
Qed.

Lemma getitem_ok l i : 1 <= i <= zlen l -> exists x, getitem l i = Ok x /\ nth_error l (Z.to_nat (i - 1)) = Some x.
Proof.
  intros H. destruct (split_at l i H) as (l1 & x & l2 & -> & E). exists x.
  split; [apply (index_in l1 x l2 i x E)|].
  unfold zlen in E. rewrite nth_error_app2 by lia. replace (Z.to_nat (i - 1) - length l1)%nat with 0%nat by lia. reflexivity.
Qed.
Lemma getitem_inv l i x : getitem l i = Ok x -> 1 <= i <= zlen l /\ nth_error l (Z.to_nat (i - 1)) = Some x.
Proof.
  intros H. destruct (Z_le_dec 1 i) as [H1|H1].
  - destruct (Z_le_dec i (zlen l)) as [H2|H2].
    + destruct (getitem_ok l i (conj H1 H2)) as (y & E & N). split; [auto|]. congruence.
    + destruct (index_out l i x) as [E _]; [lia|congruence].
  - destruct (index_out l i x) as [E _]; [lia|congruence].
Qed.

(* ordinary lists as the specification of histories *)
Definition spec_step l (o : lop A) : list A :=
  let ok i := (1 <=? i) && (i <=? zlen l) in
  let before i := firstn (Z.to_nat (i - 1)) l in
  let after i := skipn (Z.to_nat (i - 1)) l in
  match o with
  | LSet i v => if ok i then before i ++ v :: tl (after i) else l
  | LDel i => if ok i then before i ++ tl (after i) else l
  | LIns i v => if ok i then before i ++ v :: after i else l
  end.
Lemma lstep_spec l o : fst (lstep l o) = spec_step l o /\
  (snd (lstep l o) = Ok tt \/ (snd (lstep l o) = Err IndexError /\ fst (lstep l o) = l)).
Proof.
  assert (D : forall i, (1 <=? i) && (i <=? zlen l) = true -> 1 <= i <= zlen l) by (intros; lia).
  assert (D' : forall i, (1 <=? i) && (i <=? zlen l) = false -> ~ (1 <= i <= zlen l)) by (intros; lia).
  assert (F : forall l1 l2 i, zlen l1 = i - 1 -> firstn (Z.to_nat (i - 1)) (l1 ++ l2) = l1 /\ skipn (Z.to_nat (i - 1)) (l1 ++ l2) = l2).
  { intros l1 l2 i H. unfold zlen in H. replace (Z.to_nat (i - 1)) with (length l1) by lia.
    rewrite firstn_app, skipn_app, Nat.sub_diag, firstn_all, skipn_all. cbn. rewrite app_nil_r. auto. }
  destruct o as [i v|i|i v]; unfold lstep, spec_step; destruct ((1 <=? i) && (i <=? zlen l)) eqn:E.
  all: try (apply D in E; destruct (split_at l i E) as (l1 & x & l2 & -> & H);
            destruct (F l1 (x :: l2) i H) as [-> ->];
            destruct (index_in l1 x l2 i x H) as (_ & _ & Hd & _); rewrite ?Hd;
            try (destruct (index_in l1 x l2 i v H) as (_ & Hs & _ & Hi); rewrite ?Hs, ?Hi); cbn; auto; fail).
  - apply D' in E. destruct (index_out l i v E) as (_ & Hs & _ & _). rewrite Hs. cbn; auto.
  - apply D' in E. unfold delitem. rewrite (rebase_out l i E). cbn; auto.
  - apply D' in E. destruct (index_out l i v E) as (_ & _ & _ & Hs). rewrite Hs. cbn; auto.
Qed.
Lemma history_spec ops : forall l,
  fold_left (fun s o => fst (lstep s o)) ops l = fold_left spec_step ops l.
Proof.
  induction ops as [|o ops IH]; intros l; cbn; [reflexivity|].
  rewrite (proj1 (lstep_spec l o)). apply IH.
Qed.

(* ---- equality ---- *)
Variable eqA : A -> A -> bool.
Lemma seq_eq_cases l l' :
  (seq_eq eqA l l' = Ok true <-> exists l1 l2, l' = l1 ++ l2 /\ Forall2 (fun x y => eqA x y = true) l l1) /\
  (seq_eq eqA l l' = Err IndexError <-> exists l1 l2, l2 <> [] /\ l = l1 ++ l2 /\ Forall2 (fun x y => eqA x y = true) l1 l').
Proof.
  revert l'; induction l as [|x l IH]; intros l'; cbn [seq_eq].
  - split.
    + split; [intros _; exists [], l'; split; [reflexivity|constructor] | reflexivity].
    + split; [discriminate|]. intros (l1 & l2 & N & E & _). symmetry in E. apply app_eq_nil in E as [_ E]; contradiction.
  - destruct l' as [|y l'].
    + split; split; try discriminate.
      * intros (l1 & l2 & E & F). symmetry in E. apply app_eq_nil in E as [-> _]. inversion F.
      * intros _. exists [], (x :: l). split; [discriminate|]. split; [reflexivity|constructor].
      * reflexivity.
    + destruct (eqA x y) eqn:Exy.
      * destruct (IH l') as [I1 I2]. rewrite I1, I2. split; split.
        -- intros (l1 & l2 & -> & F). exists (y :: l1), l2. split; [reflexivity|]. constructor; auto.
        -- intros (l1 & l2 & E & F). inversion F; subst. cbn in E. inversion E; subst. eauto.
        -- intros (l1 & l2 & N & -> & F). exists (x :: l1), l2. split; [auto|]. split; [reflexivity|]. constructor; auto.
        -- intros (l1 & l2 & N & E & F). inversion F; subst. cbn in E. inversion E; subst. eauto.
      * split; split; try discriminate.
        -- intros (l1 & l2 & E & F). inversion F; subst. cbn in E. inversion E; subst. congruence.
        -- intros (l1 & l2 & N & E & F). inversion F; subst. cbn in E. inversion E; subst. congruence.
Qed.
Lemma Forall2_length' {B} (P : A -> B -> Prop) l (l' : list B) : Forall2 P l l' -> length l = length l'.
Proof. induction 1; cbn; auto. Qed.
Lemma seq_eq_same_length l l' : length l = length l' ->
  seq_eq eqA l l' <> Err IndexError /\
  (seq_eq eqA l l' = Ok true <-> Forall2 (fun x y => eqA x y = true) l l') /\
  (exists b, seq_eq eqA l l' = Ok b).
Proof.
  intros L. destruct (seq_eq_cases l l') as [H1 H2]. split.
  - intros E. apply H2 in E as (l1 & l2 & N & -> & F). apply Forall2_length' in F.
    rewrite app_length in L. destruct l2; [contradiction|cbn in L; lia].
  - split.
    + rewrite H1. split.
      * intros (l1 & l2 & -> & F). pose proof (Forall2_length' _ _ _ F). rewrite app_length in L.
        destruct l2; [rewrite app_nil_r; exact F|cbn in L; lia].
      * intros F. exists l', []. rewrite app_nil_r. auto.
    + clear H1 H2. revert l' L; induction l as [|x l IH]; intros l' L; cbn; [eauto|].
      destruct l' as [|y l']; [discriminate|]. destruct (eqA x y); [apply IH; cbn in L; lia|eauto].
Qed.
End L.

(* ---- complementary ---- *)
Lemma upto_In n x : In x (upto n) <-> 1 <= x <= Z.of_nat n.
Proof.
  unfold upto. rewrite in_map_iff. split.
  - intros (k & <- & H). apply in_seq in H. lia.
  - intros H. exists (Z.to_nat x). rewrite in_seq. lia.
Qed.
Lemma upto_NoDup n : NoDup (upto n).
Proof. apply FinFun.Injective_map_NoDup; [intros a b; lia|apply seq_NoDup]. Qed.
Lemma remove1_filter x l : NoDup l -> remove1 x l = filter (fun y => negb (x =? y)) l.
Proof.
  induction 1 as [|y l Hy N IH]; cbn; [reflexivity|].
  destruct (Z.eqb_spec x y) as [->|E]; cbn; [|rewrite IH; reflexivity].
  clear IH N. induction l as [|z l IH]; cbn; [reflexivity|].
  destruct (Z.eqb_spec y z) as [->|E]; cbn.
  - exfalso; apply Hy; left; reflexivity.
  - rewrite <- IH; [reflexivity|]. intros H; apply Hy; right; exact H.
Qed.
Lemma remove_fold s : forall c, NoDup c ->
  fold_left (fun c x => if existsb (Z.eqb x) c then remove1 x c else c) s c =
  filter (fun y => negb (existsb (fun x => x =? y) s)) c.
Proof.
  induction s as [|x s IH]; intros c N; cbn [fold_left].
  - cbn. symmetry. clear N. induction c as [|y c IHc]; cbn; [reflexivity|rewrite IHc; reflexivity].
  - assert (E : (if existsb (Z.eqb x) c then remove1 x c else c) = filter (fun y => negb (x =? y)) c).
    { destruct (existsb (Z.eqb x) c) eqn:Ex; [apply remove1_filter; exact N|].
      clear IH N. induction c as [|y c IHc]; cbn in *; [reflexivity|].
      destruct (x =? y); cbn in *; [discriminate|]. rewrite <- IHc; auto. }
    rewrite E, IH by (apply NoDup_filter; exact N).
    clear. induction c as [|y c IHc]; cbn; [reflexivity|].
    destruct (x =? y) eqn:Exy; cbn; [exact IHc|]. rewrite IHc. reflexivity.
Qed.
Lemma complementary_spec so n l : set_like so ->
  (l = [] -> complementary so n l = Err IndexError) /\
  (l <> [] -> complementary so n l = Ok (filter (fun y => negb (existsb (Z.eqb y) l)) (upto n))).
Proof.
  intros S. destruct (S l) as [N I]. unfold complementary. split.
  - intros ->. destruct (so []) as [|x t]; [reflexivity|]. exfalso. apply (I x). left; reflexivity.
  - intros H. destruct (so l) as [|x t] eqn:E.
    + exfalso. destruct l as [|y l]; [contradiction|]. apply (I y). left; reflexivity.
    + rewrite remove_fold by apply upto_NoDup. f_equal. apply filter_ext. intros y. f_equal.
      rewrite <- E in *. destruct (existsb (fun z => z =? y) (so l)) eqn:E1; symmetry.
      * apply existsb_exists in E1 as (z & Hz & Ez). apply existsb_exists. exists z.
        split; [apply I; exact Hz|lia].
      * destruct (existsb (Z.eqb y) l) eqn:E2; [|reflexivity].
        apply existsb_exists in E2 as (z & Hz & Ez).
        assert (T : existsb (fun z => z =? y) (so l) = true) by (apply existsb_exists; exists z; split; [apply I; exact Hz|lia]).
        congruence.
Qed.
Lemma seq_sorted a n : StronglySorted Z.lt (map Z.of_nat (seq a n)).
Proof.
  revert a; induction n as [|n IH]; intros a; cbn; [constructor|].
  constructor; [apply IH|]. rewrite Forall_forall. intros x Hx. apply in_map_iff in Hx as (k & <- & Hk).
  apply in_seq in Hk. lia.
Qed.
Lemma filter_sorted (f : Z -> bool) l : StronglySorted Z.lt l -> StronglySorted Z.lt (filter f l).
Proof.
  induction 1 as [|x l S IH F]; cbn; [constructor|]. destruct (f x); [|exact IH].
  constructor; [exact IH|]. rewrite Forall_forall in *. intros y Hy. apply filter_In in Hy as [Hy _]. auto.
Qed.
Lemma complementary_props so n l c : set_like so -> complementary so n l = Ok c ->
  StronglySorted Z.lt c /\ (forall x, In x c <-> (1 <= x <= Z.of_nat n /\ ~ In x l)).
Proof.
  intros S H. destruct (complementary_spec so n l S) as [H1 H2].
  destruct l as [|y l]; [rewrite H1 in H; [discriminate|reflexivity]|].
  rewrite H2 in H by discriminate.
  assert (Ec : c = filter (fun z => negb (existsb (Z.eqb z) (y :: l))) (upto n)) by congruence. subst c. clear H H1 H2. split.
  - apply filter_sorted, seq_sorted.
  - intros x. rewrite filter_In, upto_In.
    rewrite negb_true_iff. split.
    + intros [Hx E]. split; [exact Hx|]. intros I.
      assert (T : existsb (Z.eqb x) (y :: l) = true) by (apply existsb_exists; exists x; split; [exact I|lia]).
      congruence.
    + intros [Hx E]. split; [exact Hx|]. destruct (existsb (Z.eqb x) (y :: l)) eqn:T; [|reflexivity].
      apply existsb_exists in T as (z & Hz & Ez). exfalso; apply E. replace x with z by lia. exact Hz.
Qed.
Lemma sorted_ext l l' : StronglySorted Z.lt l -> StronglySorted Z.lt l' ->
  (forall x, In x l <-> In x l') -> l = l'.
Proof.
  intros S; revert l'; induction S as [|x l S IH F]; intros l' S' H.
  - destruct l' as [|y l']; [reflexivity|]. exfalso. apply (H y). left; reflexivity.
  - inversion S' as [|y t S2 F2 E]; subst.
    + exfalso. apply (H x). left; reflexivity.
    + rewrite Forall_forall in *.
      assert (x = y).
      { destruct (proj1 (H x) (or_introl eq_refl)) as [E|E]; [auto|].
        destruct (proj2 (H y) (or_introl eq_refl)) as [E'|E']; [auto|].
        pose proof (F _ E'). pose proof (F2 _ E). lia. }
      subst y. f_equal. apply IH; [exact S2|]. intros z. split; intros Hz.
      * destruct (proj1 (H z) (or_intror Hz)) as [E|E]; [|exact E]. subst z. pose proof (F _ Hz). lia.
      * destruct (proj2 (H z) (or_intror Hz)) as [E|E]; [|exact E]. subst z. pose proof (F2 _ Hz). lia.
Qed.
Lemma complementary_twice so n l c : set_like so -> StronglySorted Z.lt l ->
  (forall x, In x l -> 1 <= x <= Z.of_nat n) -> complementary so n l = Ok c -> c <> [] ->
  complementary so n c = Ok l.
Proof.
  intros S Sl Hl H Hc. destruct (complementary_spec so n c S) as [_ H2]. rewrite (H2 Hc). f_equal.
  apply sorted_ext; [apply filter_sorted, seq_sorted|exact Sl|].
  destruct (complementary_props so n l c S H) as [_ I].
  intros x. rewrite filter_In, upto_In, negb_true_iff. split.
  - intros [Hx E]. destruct (in_dec Z.eq_dec x l) as [i|i]; [exact i|].
    assert (T : existsb (Z.eqb x) c = true) by (apply existsb_exists; exists x; split; [apply I; auto|lia]). congruence.
  - intros Hx. split; [auto|]. destruct (existsb (Z.eqb x) c) eqn:T; [|reflexivity].
    apply existsb_exists in T as (z & Hz & Ez). replace z with x in Hz by lia. apply I in Hz. tauto.
Qed.
Lemma complementary_perm so n l c : set_like so -> NoDup l -> (forall x, In x l -> 1 <= x <= Z.of_nat n) ->
  complementary so n l = Ok c -> Permutation (l ++ c) (upto n).
Proof.
  intros S N Hl H. destruct (complementary_props so n l c S H) as [Sc I].
  apply NoDup_Permutation.
  - assert (Nc : NoDup c).
    { clear -Sc. induction Sc as [|x c S IH F]; constructor; [|exact IH].
      intros Hx. rewrite Forall_forall in F. pose proof (F _ Hx). lia. }
    assert (D : forall x, In x l -> ~ In x c) by (intros x Hx Hc; apply I in Hc; tauto).
    clear -N Nc D. induction N as [|x l Hx N IH]; cbn; [exact Nc|].
    constructor; [|apply IH; intros y Hy; apply D; right; exact Hy].
    rewrite in_app_iff. intros [Hl|Hc]; [contradiction|]. apply (D x); [left; reflexivity|exact Hc].
  - apply upto_NoDup.
  - intros x. rewrite in_app_iff, upto_In. split.
    + intros [Hx|Hx]; [auto|]. apply I in Hx. tauto.
    + intros Hx. destruct (in_dec Z.eq_dec x l) as [i|i]; [left; exact i|right; apply I; auto].
Qed.
