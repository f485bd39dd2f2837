(* Proofs about the brackets with a middle part. *)
From Coq Require Import Ascii String.
From Coq Require Import List ZArith Bool Lia Sorted Permutation.
From Verif Require Import Base Symm Str SymmThm MassesThm Gen GenSpec GenThm.
Import ListNotations.
Open Scope Z_scope.

Lemma zlist_eqb_spec a : forall b, reflect (a = b) (zlist_eqb a b).
Proof.
  induction a as [|x a IH]; intros [|y b]; cbn; try (constructor; discriminate); [constructor; reflexivity|].
  destruct (Z.eqb_spec x y) as [->|N]; cbn [andb]; [|constructor; intros E; injection E; auto]. destruct (IH b) as [->|N]; constructor; [reflexivity|intros E; injection E; auto].
Qed.
Lemma mids_eqb_spec a : forall b, reflect (a = b) (mids_eqb a b).
Proof.
  induction a as [|x a IH]; intros [|y b]; cbn; try (constructor; discriminate); [constructor; reflexivity|].
  destruct (zlist_eqb_spec x y) as [->|N]; cbn [andb]; [|constructor; intros E; injection E; auto]. destruct (IH b) as [->|N]; constructor; [reflexivity|intros E; injection E; auto].
Qed.
Lemma brk_eqb_spec a b : reflect (a = b) (brk_eqb a b).
Proof.
  destruct a as [o i m j], b as [o' i' m' j']. unfold brk_eqb. cbn [b_ang b_i b_mid b_j].
  destruct (Bool.eqb_spec o o') as [->|N]; cbn [andb]; [|constructor; intros E; injection E; auto].
  destruct (Z.eqb_spec i i') as [->|N]; cbn [andb]; [|constructor; intros E; injection E; auto].
  destruct (Z.eqb_spec j j') as [->|N]; cbn [andb]; [|constructor; intros E; injection E; auto].
  destruct (mids_eqb_spec m m') as [->|N]; constructor; [reflexivity|intros E; injection E; auto].
Qed.
Lemma memz_In x l : memz x l = true <-> In x l.
Proof. unfold memz. rewrite existsb_exists. split; [intros (y & H & E); apply Z.eqb_eq in E; subst; exact H|intros H; exists x; split; [exact H|apply Z.eqb_refl]]. Qed.
Lemma memz_false x l : memz x l = false <-> ~ In x l.
Proof. rewrite <- memz_In. destruct (memz x l); split; congruence. Qed.
Lemma memb_In x l : memb x l = true <-> In x l.
Proof.
  unfold memb. rewrite existsb_exists. split; [intros (y & H & E); destruct (brk_eqb_spec y x); [subst; exact H|discriminate]|intros H; exists x; split; [exact H|]].
  destruct (brk_eqb_spec x x); [reflexivity|contradiction].
Qed.

(* ---- list.remove ---- *)
Section Remove.
Context {A : Type} (eqb : A -> A -> bool) (spec : forall a b, reflect (a = b) (eqb a b)).
Lemma remove1_ok x l : In x l -> exists l1 l2, l = l1 ++ x :: l2 /\ ~ In x l1 /\ remove1 eqb x l = Ok (l1 ++ l2).
Proof.
  induction l as [|y l IH]; intros H; [destruct H|]. cbn [remove1]. destruct (spec y x) as [->|N]; [exists [], l; auto|].
  destruct H as [H|H]; [contradiction|]. destruct (IH H) as (l1 & l2 & -> & N1 & E). rewrite E. exists (y :: l1), l2. split; [reflexivity|]. split; [intros [Y|Y]; auto|reflexivity].
Qed.
Lemma remove1_err x l : ~ In x l -> remove1 eqb x l = Err ValueError.
Proof.
  induction l as [|y l IH]; intros H; [reflexivity|]. cbn [remove1]. destruct (spec y x) as [->|N]; [exfalso; apply H; left; reflexivity|].
  rewrite IH; [reflexivity|]. intros Y. apply H. right; exact Y.
Qed.
Lemma remove1_app x l1 l2 : ~ In x l1 -> remove1 eqb x (l1 ++ l2) = rmap (app l1) (remove1 eqb x l2).
Proof.
  induction l1 as [|y l1 IH]; intros H; cbn [app remove1]; [destruct (remove1 eqb x l2); reflexivity|].
  destruct (spec y x) as [->|N]; [exfalso; apply H; left; reflexivity|]. rewrite IH by (intros Y; apply H; right; exact Y). destruct (remove1 eqb x l2); reflexivity.
Qed.
End Remove.

(* ---- the loop that removes partners from the list it runs over ---- *)
Section Partners.
Variables (f : list Z -> list Z) (l : list (list Z)).
Hypothesis closed : forall e, In e l -> In (f e) l.
Hypothesis invol : forall e, In e l -> f (f e) = e.
Hypothesis nofix : forall e, In e l -> f e <> e.
Lemma partners_loop fuel : forall V R, NoDup (V ++ R) -> incl (V ++ R) l -> (length R <= fuel)%nat ->
  (forall e, In e l -> In e (V ++ R) \/ exists v, In v V /\ e = f v) -> (forall v, In v V -> ~ In (f v) (V ++ R)) ->
  exists r, remove_partners fuel f (length V) (V ++ R) = Ok r /\ NoDup r /\ incl r l /\ forall e, In e l -> (In e r /\ ~ In (f e) r) \/ (~ In e r /\ In (f e) r).
Proof.
  induction fuel as [|fuel IH]; intros V R N I F C D.
  - destruct R as [|e R]; [|cbn in F; lia]. rewrite app_nil_r in *. exists V. split; [reflexivity|]. split; [exact N|]. split; [exact I|].
    intros e He. destruct (C e He) as [H|(v & Hv & ->)]; [left; auto|]. right. rewrite invol by auto. auto.
  - cbn [remove_partners]. destruct R as [|e R].
    + rewrite app_nil_r in *. rewrite (proj2 (nth_error_None V (length V))) by lia. exists V. split; [reflexivity|]. split; [exact N|]. split; [exact I|].
      intros e He. destruct (C e He) as [H|(v & Hv & ->)]; [left; auto|]. right. rewrite invol by auto. auto.
    + rewrite nth_error_app2, Nat.sub_diag by lia. cbn [nth_error].
      assert (He : In e l) by (apply I, in_app_iff; right; left; reflexivity).
      assert (NV : ~ In e V) by (apply NoDup_remove_2 in N; rewrite in_app_iff in N; auto).
      assert (NR : ~ In e R) by (apply NoDup_remove_2 in N; rewrite in_app_iff in N; auto).
      assert (IV : forall v, In v V -> In v l) by (intros v Hv; apply I, in_app_iff; left; exact Hv).
      assert (PV : ~ In (f e) V).
      { intros H. apply (D _ H). rewrite invol by exact He. apply in_app_iff. right; left; reflexivity. }
      assert (PR : In (f e) R).
      { destruct (C (f e) (closed e He)) as [H|(v & Hv & E)].
        - apply in_app_iff in H as [H|[H|H]]; [contradiction|exfalso; apply (nofix e He); auto|exact H].
        - exfalso. apply NV. assert (EE := f_equal f E). rewrite !invol in EE by auto. subst v. exact Hv. }
      change (V ++ e :: R) with (V ++ [e] ++ R). rewrite app_assoc.
      rewrite (remove1_app zlist_eqb zlist_eqb_spec) by (rewrite in_app_iff; intros [H|[H|[]]]; [contradiction|apply (nofix e He); auto]).
      destruct (remove1_ok zlist_eqb zlist_eqb_spec _ _ PR) as (R1 & R2 & ER & _ & EM). rewrite EM. cbn [rmap rbind].
      assert (N' : NoDup ((V ++ [e]) ++ R1 ++ f e :: R2)) by (rewrite <- ER, <- app_assoc; exact N).
      replace (S (length V)) with (length (V ++ [e])) by (rewrite app_length; cbn; lia).
      assert (INC : forall x, In x ((V ++ [e]) ++ R1 ++ R2) -> In x ((V ++ [e]) ++ R1 ++ f e :: R2)).
      { intros x H. rewrite !in_app_iff in *. cbn [In] in *. tauto. }
      apply IH.
      * rewrite app_assoc in N' |- *. apply NoDup_remove_1 in N'. exact N'.
      * intros x H. apply INC in H. rewrite <- ER, <- app_assoc in H. exact (I x H).
      * assert (length R = S (length (R1 ++ R2))) by (rewrite ER, !app_length; cbn; lia). cbn in F. lia.
      * intros x Hx. destruct (C x Hx) as [H|(v & Hv & E)].
        -- rewrite ER in H. apply in_app_iff in H as [H|[H|H]]; [left; rewrite !in_app_iff; tauto|left; rewrite !in_app_iff; cbn [In]; tauto|].
           apply in_app_iff in H as [H|[H|H]]; [left; rewrite !in_app_iff; tauto| |left; rewrite !in_app_iff; tauto]. right. exists e. split; [apply in_app_iff; right; left; reflexivity|auto].
        -- right. exists v. split; [apply in_app_iff; left; exact Hv|exact E].
      * intros v Hv H. apply in_app_iff in Hv as [Hv|[<-|[]]].
        -- apply (D v Hv). apply INC in H. rewrite <- ER, <- app_assoc in H. exact H.
        -- rewrite app_assoc in N', H. apply NoDup_remove_2 in N'. contradiction.
Qed.
Lemma remove_partners_ok : NoDup l -> exists r, remove_partners (length l) f 0 l = Ok r /\ NoDup r /\ incl r l /\
  forall e, In e l -> (In e r /\ ~ In (f e) r) \/ (~ In e r /\ In (f e) r).
Proof. intros N. apply (partners_loop (length l) [] l); auto using incl_refl. Qed.
End Partners.

(* ---- sorted lists with the same elements ---- *)
Lemma sorted_ext a : forall b, StronglySorted Z.lt a -> StronglySorted Z.lt b -> (forall x, In x a <-> In x b) -> a = b.
Proof.
  induction a as [|x a IH]; intros [|y b] Sa Sb E; [reflexivity|destruct (proj2 (E y) (or_introl eq_refl))|destruct (proj1 (E x) (or_introl eq_refl))|].
  inversion Sa as [|? ? Sa' Fa]; subst. inversion Sb as [|? ? Sb' Fb]; subst. rewrite Forall_forall in Fa, Fb.
  assert (x = y).
  { destruct (proj1 (E x) (or_introl eq_refl)) as [H|H]; [auto|]. destruct (proj2 (E y) (or_introl eq_refl)) as [H'|H']; [auto|]. specialize (Fa _ H'). specialize (Fb _ H). lia. }
  subst y. f_equal. apply IH; auto. intros z. split; intros H.
  - destruct (proj1 (E z) (or_intror H)) as [->|H']; [specialize (Fa _ H); lia|exact H'].
  - destruct (proj2 (E z) (or_intror H)) as [->|H']; [specialize (Fb _ H); lia|exact H'].
Qed.
Lemma filter_sorted f l : StronglySorted Z.lt l -> StronglySorted Z.lt (filter f l).
Proof.
  induction 1 as [|x l S IH F]; cbn; [constructor|]. destruct (f x); [|exact IH]. constructor; [exact IH|]. rewrite Forall_forall in *. intros y Hy. apply filter_In in Hy as [Hy _]. auto.
Qed.
Lemma zrange_len a b : a <= b -> Z.of_nat (length (zrange a b)) = b - a.
Proof. intros H. unfold zrange. rewrite map_length, seq_length. lia. Qed.

(* ---- _inner_bracket ---- *)
(* the legs beside the one or two labels *)
Definition beside (n a1 a2 : Z) : list Z := filter (fun x => negb (x =? a1) && negb (x =? a2)) (zrange 1 (n + 1)).
Lemma beside_In n a1 a2 x : In x (beside n a1 a2) <-> 1 <= x <= n /\ x <> a1 /\ x <> a2.
Proof.
  unfold beside. rewrite filter_In, zrange_In, andb_true_iff, !negb_true_iff, !Z.eqb_neq. lia.
Qed.
Lemma beside_sorted n a1 a2 : StronglySorted Z.lt (beside n a1 a2).
Proof. apply filter_sorted, zrange_sorted. Qed.
Definition rest_of (n a1 a2 : Z) (e : list Z) : list Z := filter (fun x => negb (x =? a1) && negb (x =? a2)) (complementary n e).
Lemma rest_In n a1 a2 e x : In x (rest_of n a1 a2 e) <-> In x (beside n a1 a2) /\ ~ In x e.
Proof.
  unfold rest_of, complementary. rewrite beside_In, !filter_In, zrange_In, andb_true_iff, !negb_true_iff, !Z.eqb_neq, memz_false. intuition lia.
Qed.
Lemma rest_sorted n a1 a2 e : StronglySorted Z.lt (rest_of n a1 a2 e).
Proof. apply filter_sorted, filter_sorted, zrange_sorted. Qed.
Lemma rest_len n a1 a2 e : StronglySorted Z.lt e -> incl e (beside n a1 a2) -> (length e + length (rest_of n a1 a2 e) = length (beside n a1 a2))%nat.
Proof.
  intros S I. rewrite <- app_length. apply Permutation_length. apply NoDup_Permutation.
  - apply NoDup_app''; auto using sorted_lt_NoDup, rest_sorted. intros x H H'. apply rest_In in H' as [_ H']. contradiction.
  - auto using sorted_lt_NoDup, beside_sorted.
  - intros x. rewrite in_app_iff, rest_In. split; [intros [H|[H _]]; auto|]. intros H. destruct (in_dec Z.eq_dec x e); auto.
Qed.
Definition subsets (n a1 a2 : Z) (k : nat) : list (list Z) := filter (fun e => negb (memz a1 e) && negb (memz a2 e)) (combinations k (zrange 1 (n + 1))).
Lemma subsets_In n a1 a2 k e : In e (subsets n a1 a2 k) <-> StronglySorted Z.lt e /\ length e = k /\ incl e (beside n a1 a2).
Proof.
  unfold subsets. rewrite filter_In, andb_true_iff, !negb_true_iff, !memz_false. split.
  - intros (H & A1 & A2). split; [exact (comb_sorted _ _ (zrange_sorted _ _) _ H)|]. apply comb_length in H as [L I]. split; [exact L|].
    intros x Hx. apply beside_In. specialize (I x Hx). apply zrange_In in I. split; [lia|]. split; intros ->; contradiction.
  - intros (S & L & I). split; [|split; intros H; apply I, beside_In in H; lia]. apply comb_In; auto using zrange_sorted. intros x Hx. apply I, beside_In in Hx. apply zrange_In. lia.
Qed.
Lemma subsets_NoDup n a1 a2 k : NoDup (subsets n a1 a2 k).
Proof. apply NoDup_filter, comb_NoDup, zrange_NoDup. Qed.
Lemma rest_rest n a1 a2 e : StronglySorted Z.lt e -> incl e (beside n a1 a2) -> rest_of n a1 a2 (rest_of n a1 a2 e) = e.
Proof.
  intros S I. apply sorted_ext; auto using rest_sorted. intros x. rewrite !rest_In. split.
  - intros [H N]. destruct (in_dec Z.eq_dec x e) as [Y|Y]; [exact Y|]. exfalso. apply N. auto.
  - intros H. split; [auto|]. tauto.
Qed.
(* admissible arguments: no label, or labels between 1 and n *)
Definition adj_ok (n a1 a2 : Z) : Prop := 1 <= a1 <= n /\ (a2 = 0 \/ 1 <= a2 <= n).
Lemma beside_len n a1 a2 : adj_ok n a1 a2 -> Z.of_nat (length (beside n a1 a2)) = if (a2 =? 0) || (a1 =? a2) then n - 1 else n - 2.
Proof.
  intros [H1 H2].
  assert (P : Permutation (beside n a1 a2 ++ (if (a2 =? 0) || (a1 =? a2) then [a1] else [a1; a2])) (zrange 1 (n + 1))).
  { apply NoDup_Permutation; [apply NoDup_app''| |].
    - auto using sorted_lt_NoDup, beside_sorted.
    - destruct (Z.eqb_spec a2 0), (Z.eqb_spec a1 a2); cbn [orb]; repeat constructor; cbn; try tauto. intros [E|[]]; congruence.
    - intros x Hx H. apply beside_In in Hx. destruct ((a2 =? 0) || (a1 =? a2)); cbn in H; lia.
    - apply zrange_NoDup.
    - intros x. rewrite in_app_iff, beside_In, zrange_In. destruct (Z.eqb_spec a2 0), (Z.eqb_spec a1 a2); cbn [orb In]; lia. }
  apply Permutation_length in P. rewrite app_length in P. assert (Z := zrange_len 1 (n + 1) ltac:(lia)). destruct ((a2 =? 0) || (a1 =? a2)); cbn [length] in P; lia.
Qed.
Theorem inner_bracket_ok n k a1 a2 : adj_ok n a1 a2 -> 1 <= k -> let m := Z.of_nat (length (beside n a1 a2)) in
  (m < 2 * k /\ inner_bracket n k a1 a2 = Ok None) \/
  (2 * k < m /\ inner_bracket n k a1 a2 = Ok (Some (subsets n a1 a2 (Z.to_nat k)))) \/
  (2 * k = m /\ exists r, inner_bracket n k a1 a2 = Ok (Some r) /\ NoDup r /\ incl r (subsets n a1 a2 (Z.to_nat k)) /\
     forall e, In e (subsets n a1 a2 (Z.to_nat k)) -> (In e r /\ ~ In (rest_of n a1 a2 e) r) \/ (~ In e r /\ In (rest_of n a1 a2 e) r)).
Proof.
  intros A K m. assert (M := beside_len n a1 a2 A). fold m in M. unfold inner_bracket. fold (subsets n a1 a2 (Z.to_nat k)).
  set (cl := if negb (a1 =? 0) && negb (a2 =? 0) then _ else _).
  assert (CL : cl = m - k).
  { unfold cl. rewrite M. destruct A as [A1 A2]. destruct (Z.eqb_spec a1 0); [lia|]. cbn [negb andb orb]. destruct (Z.eqb_spec a2 0); cbn [negb andb orb]; [lia|]. destruct (a1 =? a2); lia. }
  rewrite CL. destruct (Z.eqb_spec (m - k) k) as [E|E].
  - right; right. split; [lia|]. change (fun e => filter (fun x => negb (x =? a1) && negb (x =? a2)) (complementary n e)) with (rest_of n a1 a2).
    destruct (remove_partners_ok (rest_of n a1 a2) (subsets n a1 a2 (Z.to_nat k))) as (r & Er & N & I & P).
    + intros e He. apply subsets_In in He as (S & L & I). apply subsets_In. split; [apply rest_sorted|]. split; [|intros x Hx; apply rest_In in Hx as [Hx _]; exact Hx].
      assert (T := rest_len n a1 a2 e S I). lia.
    + intros e He. apply subsets_In in He as (S & L & I). apply rest_rest; assumption.
    + intros e He F. apply subsets_In in He as (S & L & I). destruct e as [|x e]; [cbn in L; lia|]. assert (Hx : In x (rest_of n a1 a2 (x :: e))) by (rewrite F; left; reflexivity).
      apply rest_In in Hx as [_ Hx]. apply Hx. left; reflexivity.
    + apply subsets_NoDup.
    + exists r. rewrite Er. auto.
  - destruct (Z.ltb_spec (m - k) k); [left; split; [lia|reflexivity]|right; left; split; [lia|reflexivity]].
Qed.

(* ---- three brackets ---- *)
Lemma rmapM_map {A B} (f : A -> result B) (g : A -> B) l : (forall x, In x l -> f x = Ok (g x)) -> rmapM f l = Ok (map g l).
Proof. induction l as [|x l IH]; intros H; [reflexivity|]. cbn. rewrite (H x (or_introl eq_refl)), IH; [reflexivity|]. intros y Hy. apply H. right; exact Hy. Qed.
Definition okl (r : result (list brk)) : list brk := match r with Ok l => l | Err _ => [] end.
Definition at_pair (n nbr i j : Z) : list brk := okl (gen_N_at n nbr i j).
Lemma gen_N_flat n nbr : (forall i j, 1 <= i <= n -> 1 <= j <= n -> exists y, gen_N_at n nbr i j = Ok y) ->
  gen_N n nbr = Ok (flat_map (fun i => flat_map (at_pair n nbr i) (zrange 1 (n + 1))) (zrange 1 (n + 1))).
Proof.
  intros H. unfold gen_N. rewrite (rmapM_map _ (fun i => flat_map (at_pair n nbr i) (zrange 1 (n + 1)))).
  - cbn [rbind]. rewrite <- flat_map_concat_map. reflexivity.
  - intros i Hi. apply zrange_In in Hi. rewrite (rmapM_map _ (at_pair n nbr i)); [cbn [rmap]; rewrite <- flat_map_concat_map; reflexivity|].
    intros j Hj. apply zrange_In in Hj. unfold at_pair. destruct (H i j ltac:(lia) ltac:(lia)) as (y & ->). reflexivity.
Qed.
Lemma flat_pair_In n nbr b : In b (flat_map (fun i => flat_map (at_pair n nbr i) (zrange 1 (n + 1))) (zrange 1 (n + 1))) <-> exists i j, 1 <= i <= n /\ 1 <= j <= n /\ In b (at_pair n nbr i j).
Proof.
  rewrite in_flat_map. split.
  - intros (i & Hi & H). apply in_flat_map in H as (j & Hj & H). apply zrange_In in Hi, Hj. exists i, j. repeat split; try lia. exact H.
  - intros (i & j & Hi & Hj & H). exists i. split; [apply zrange_In; lia|]. apply in_flat_map. exists j. split; [apply zrange_In; lia|exact H].
Qed.
Lemma flat_pair_NoDup n nbr : (forall i j, 1 <= i <= n -> 1 <= j <= n -> NoDup (at_pair n nbr i j) /\ forall b, In b (at_pair n nbr i j) -> b_i b = i /\ b_j b = j) ->
  NoDup (flat_map (fun i => flat_map (at_pair n nbr i) (zrange 1 (n + 1))) (zrange 1 (n + 1))).
Proof.
  intros H. apply NoDup_flat_map; [apply zrange_NoDup| |].
  - intros i Hi. apply zrange_In in Hi. apply NoDup_flat_map; [apply zrange_NoDup| |].
    + intros j Hj. apply zrange_In in Hj. apply H; lia.
    + intros j j' b Hj Hj' B B'. apply zrange_In in Hj, Hj'. apply (H i j ltac:(lia) ltac:(lia)) in B. apply (H i j' ltac:(lia) ltac:(lia)) in B'. lia.
  - intros i i' b Hi Hi' B B'. apply zrange_In in Hi, Hi'. apply in_flat_map in B as (j & Hj & B), B' as (j' & Hj' & B'). apply zrange_In in Hj, Hj'.
    apply (H i j ltac:(lia) ltac:(lia)) in B. apply (H i' j' ltac:(lia) ltac:(lia)) in B'. lia.
Qed.
(* what the parts for one pair of labels are: [m] legs are beside them, sizes from a to b - 1 *)
Definition parts (n a1 a2 a b : Z) (r : list (list Z)) : Prop :=
  NoDup r /\ (forall e, In e r -> StronglySorted Z.lt e /\ incl e (beside n a1 a2) /\ a <= Z.of_nat (length e) < b /\ 2 * Z.of_nat (length e) <= Z.of_nat (length (beside n a1 a2))) /\
  (forall e, StronglySorted Z.lt e -> incl e (beside n a1 a2) -> a <= Z.of_nat (length e) < b ->
     (2 * Z.of_nat (length e) < Z.of_nat (length (beside n a1 a2)) -> In e r) /\
     (2 * Z.of_nat (length e) = Z.of_nat (length (beside n a1 a2)) -> (In e r /\ ~ In (rest_of n a1 a2 e) r) \/ (~ In e r /\ In (rest_of n a1 a2 e) r))).
Lemma parts_nil n a1 a2 a b : Z.of_nat (length (beside n a1 a2)) < 2 * a \/ b <= a -> parts n a1 a2 a b [].
Proof. intros H. split; [constructor|]. split; [intros e []|]. intros e _ _ L. split; intros; exfalso; lia. Qed.
Lemma flat_single {A} (l : list A) : flat_map (fun e => [[e]]) l = map (fun e => [e]) l.
Proof. induction l; cbn; congruence. Qed.
Lemma parts_loop n nbr m first last a1 a2 mids : adj_ok n a1 a2 -> (forall k, comb_for n nbr m k first last = inner_bracket n k a1 a2) -> forall d a b, d = Z.to_nat (b - a) -> 1 <= a ->
  exists r, lengths_loop n nbr m first last mids (zrange a b) = Ok (flat_map (extend m first last mids) r) /\ parts n a1 a2 a b r.
Proof.
  intros A CF. induction d as [|d IH]; intros a b E Ha.
  - rewrite zrange_nil by lia. exists []. split; [reflexivity|apply parts_nil; lia].
  - rewrite zrange_cons by lia. cbn [lengths_loop]. rewrite CF.
    assert (K := inner_bracket_ok n a a1 a2 A Ha). cbv zeta in K. destruct K as [[C ->]|[[C ->]|(C & r0 & -> & N0 & I0 & P0)]]; cbn [rbind].
    + exists []. split; [reflexivity|]. apply parts_nil. lia.
    + destruct (IH (a + 1) b ltac:(lia) ltac:(lia)) as (r & -> & (N & F & G)). cbn [rbind].
      exists (subsets n a1 a2 (Z.to_nat a) ++ r). rewrite flat_map_app. split; [reflexivity|]. split; [|split].
      * apply NoDup_app''; [apply subsets_NoDup|exact N|]. intros e He He'. apply subsets_In in He as (_ & L & _). apply F in He' as (_ & _ & L' & _). lia.
      * intros e He. apply in_app_iff in He as [He|He].
        -- apply subsets_In in He as (S & L & I). split; [exact S|]. split; [exact I|]. lia.
        -- apply F in He as (S & I & L & L'). split; [exact S|]. split; [exact I|]. lia.
      * intros e S I L. destruct (Z.eq_dec (Z.of_nat (length e)) a) as [Q|Q].
        -- split; intros H; [|lia]. apply in_app_iff. left. apply subsets_In. split; [exact S|]. split; [lia|exact I].
        -- destruct (G e S I ltac:(lia)) as [G1 G2]. split; intros H; [apply in_app_iff; right; auto|].
           assert (R := rest_len n a1 a2 e S I).
           assert (X : forall x, length x = length e -> In x (subsets n a1 a2 (Z.to_nat a) ++ r) <-> In x r).
           { intros x Lx. rewrite in_app_iff. split; [intros [Y|Y]; [apply subsets_In in Y as (_ & Y & _); lia|exact Y]|auto]. }
           rewrite (X e eq_refl), (X (rest_of n a1 a2 e)) by lia. auto.
    + destruct (IH (a + 1) b ltac:(lia) ltac:(lia)) as (r & -> & (N & F & G)). cbn [rbind].
      assert (r = []) as ->. { destruct r as [|e r]; [reflexivity|]. destruct (F e (or_introl eq_refl)) as (_ & _ & L & L'). lia. }
      cbn [flat_map]. rewrite app_nil_r. exists r0. split; [reflexivity|]. split; [exact N0|]. split.
      * intros e He. apply I0, subsets_In in He as (S & L & I). split; [exact S|]. split; [exact I|]. lia.
      * intros e S I L. destruct (Z.eq_dec (Z.of_nat (length e)) a) as [Q|Q]; [|split; intros; lia]. split; intros H; [lia|]. apply P0. apply subsets_In. split; [exact S|]. split; [lia|exact I].
Qed.
Lemma extend_1 first last mids r : flat_map (extend 1 first last mids) r = map (fun e => [e]) r.
Proof. apply flat_single. Qed.
Lemma at_pair_3 n i j : 1 <= i <= n -> 1 <= j <= n -> exists r, gen_N_at n 3 i j = Ok (map (fun e => Brk true i [e] j) r) /\ parts n i j 2 (n / 2 + 1) r.
Proof.
  intros Hi Hj. unfold gen_N_at. change (3 mod 2 =? 0) with false. cbn [andb]. change (zrange 1 (3 - 1)) with [1]. cbn [middles_loop].
  destruct (parts_loop n 3 1 i j i j [] (conj Hi (or_intror Hj)) (fun k => eq_refl) _ 2 (n / 2 + 1) eq_refl ltac:(lia)) as (r & E & P). rewrite E. cbn [rbind].
  exists r. split; [|exact P]. rewrite extend_1. cbn [flat_map]. rewrite app_nil_r, map_map. reflexivity.
Qed.
Theorem gen_3_ok n : exists l, gen_N n 3 = Ok l /\ NoDup l /\
  (forall b, In b l -> exists i S j, b = Brk true i [S] j /\ 1 <= i <= n /\ 1 <= j <= n /\ StronglySorted Z.lt S /\ incl S (beside n i j) /\ 2 <= Z.of_nat (length S) <= n / 2) /\
  (forall i j S, 1 <= i <= n -> 1 <= j <= n -> StronglySorted Z.lt S -> incl S (beside n i j) -> (2 <= length S)%nat -> (2 <= length (rest_of n i j S))%nat ->
     (In (Brk true i [S] j) l /\ ~ In (Brk true i [rest_of n i j S] j) l) \/ (~ In (Brk true i [S] j) l /\ In (Brk true i [rest_of n i j S] j) l)).
Proof.
  exists (flat_map (fun i => flat_map (at_pair n 3 i) (zrange 1 (n + 1))) (zrange 1 (n + 1))).
  assert (AT : forall i j, 1 <= i <= n -> 1 <= j <= n -> exists r, at_pair n 3 i j = map (fun e => Brk true i [e] j) r /\ parts n i j 2 (n / 2 + 1) r).
  { intros i j Hi Hj. destruct (at_pair_3 n i j Hi Hj) as (r & E & P). exists r. unfold at_pair. rewrite E. auto. }
  split; [|split; [|split]].
  - apply gen_N_flat. intros i j Hi Hj. destruct (at_pair_3 n i j Hi Hj) as (r & E & _). eauto.
  - apply flat_pair_NoDup. intros i j Hi Hj. destruct (AT i j Hi Hj) as (r & -> & (N & _)). split.
    + apply FinFun.Injective_map_NoDup; [intros a b H; injection H; auto|exact N].
    + intros b H. apply in_map_iff in H as (e & <- & _). auto.
  - intros b H. apply flat_pair_In in H as (i & j & Hi & Hj & H). destruct (AT i j Hi Hj) as (r & E & (_ & F & _)). rewrite E in H. apply in_map_iff in H as (S & <- & H).
    exists i, S, j. apply F in H as (A & B & C & D). repeat split; auto; lia.
  - intros i j S Hi Hj SS I L2 L2'.
    assert (R := rest_len n i j S SS I). assert (BL := beside_len n i j (conj Hi (or_intror Hj))).
    assert (BL' : Z.of_nat (length (beside n i j)) <= n - 1) by (destruct ((j =? 0) || (i =? j)); lia).
    assert (DV := Z.div_mod n 2 ltac:(lia)). assert (MD := Z.mod_pos_bound n 2 ltac:(lia)).
    destruct (AT i j Hi Hj) as (r & E & (N & F & G)).
    assert (X : forall T, In (Brk true i [T] j) (flat_map (fun i => flat_map (at_pair n 3 i) (zrange 1 (n + 1))) (zrange 1 (n + 1))) <-> In T r).
    { intros T. rewrite flat_pair_In. split.
      - intros (i' & j' & Hi' & Hj' & H). destruct (AT i' j' Hi' Hj') as (r' & E' & _). rewrite E' in H. apply in_map_iff in H as (T' & EQ & H). injection EQ as -> -> ->.
        assert (In (Brk true i [T] j) (at_pair n 3 i j)) as B by (rewrite E'; apply in_map_iff; exists T; auto). rewrite E in B. apply in_map_iff in B as (T'' & EQ & B). injection EQ as ->. exact B.
      - intros H. exists i, j. split; [exact Hi|]. split; [exact Hj|]. rewrite E. apply in_map_iff. exists T. auto. }
    rewrite !X. destruct (Z.lt_trichotomy (Z.of_nat (length S)) (Z.of_nat (length (rest_of n i j S)))) as [LT|[EQ|GT]].
    + left. split; [apply G; auto; lia|]. intros H. apply F in H. lia.
    + apply (G S SS I); lia.
    + right. split; [intros H; apply F in H; lia|]. apply G; [apply rest_sorted|intros x Hx; apply rest_In in Hx as [Hx _]; exact Hx|lia|lia].
Qed.

Theorem three_once n : exists l, gen_N n 3 = Ok l /\ NoDup l /\
  (forall b, In b l -> exists i S j T, b = Brk true i [S] j /\ 1 <= i <= n /\ 1 <= j <= n /\ shares_out n i j S T /\ 2 <= Z.of_nat (length S) <= n / 2) /\
  (forall i j S T, 1 <= i <= n -> 1 <= j <= n -> shares_out n i j S T -> (2 <= length S)%nat -> (2 <= length T)%nat ->
     (In (Brk true i [S] j) l /\ ~ In (Brk true i [T] j) l) \/ (~ In (Brk true i [S] j) l /\ In (Brk true i [T] j) l)).
Proof.
  destruct (gen_3_ok n) as (l & E & N & W & O). exists l. split; [exact E|]. split; [exact N|]. split.
  - intros b Hb. destruct (W b Hb) as (i & S & j & -> & Hi & Hj & Ss & IS & L). exists i, S, j, (rest_of n i j S). repeat split; auto; try lia; try apply rest_sorted.
    + apply Forall_forall. intros x Hx. apply IS, beside_In in Hx. tauto.
    + apply Forall_forall. intros x Hx. apply rest_In in Hx as [Hx _]. apply beside_In in Hx. tauto.
    + apply IS, beside_In in H. tauto.
    + apply IS, beside_In in H. tauto.
    + apply rest_In in H as [H _]. apply beside_In in H. tauto.
    + apply rest_In in H as [H _]. apply beside_In in H. tauto.
    + intros I. apply rest_In in I. tauto.
    + intros I. apply rest_In. split; [apply beside_In; tauto|exact I].
  - intros i j S T Hi Hj ((Ss & Fs) & (St & Ft) & X) LS LT. rewrite Forall_forall in Fs, Ft.
    assert (IS : incl S (beside n i j)) by (intros x Hx; apply beside_In; split; [apply Fs, Hx|exact (proj1 (X x) Hx)]).
    assert (ET : T = rest_of n i j S).
    { apply sorted_ext; auto using rest_sorted. intros x. rewrite rest_In, beside_In. destruct (X x) as (X1 & X2 & X3). split.
      - intros H. split; [split; [apply Ft, H|apply X2, H]|]. apply X3; [apply Ft, H|apply X2, H|apply X2, H|exact H].
      - intros [[H1 [H2 H3]] H4]. apply X3; assumption. }
    subst T. apply O; assumption.
Qed.

(* ---- four brackets ---- *)
Lemma at_pair_4 n i j : 1 <= i <= n -> 1 <= j <= n -> i <= j -> exists r1 r2,
  gen_N_at n 4 i j = Ok (flat_map (fun ang => map (fun mid => Brk ang i mid j) (flat_map (extend 2 i j (map (fun e => [e]) r1)) r2)) [true; false]) /\
  parts n i 0 2 (n / 2 + 1) r1 /\ parts n j 0 2 (n / 2 + 1) r2.
Proof.
  intros Hi Hj L. unfold gen_N_at. change (4 mod 2 =? 0) with true. cbn [andb]. destruct (Z.gtb_spec i j); [lia|]. change (zrange 1 (4 - 1)) with [1; 2]. cbn [middles_loop].
  destruct (parts_loop n 4 1 i j i 0 [] (conj Hi (or_introl eq_refl)) (fun k => eq_refl) _ 2 (n / 2 + 1) eq_refl ltac:(lia)) as (r1 & E1 & P1). rewrite E1, extend_1. cbn [rbind].
  destruct (parts_loop n 4 2 i j j 0 (map (fun e => [e]) r1) (conj Hj (or_introl eq_refl)) (fun k => eq_refl) _ 2 (n / 2 + 1) eq_refl ltac:(lia)) as (r2 & E2 & P2). rewrite E2. cbn [rbind].
  exists r1, r2. auto.
Qed.
Lemma extend_2_In i j r1 e mid : In mid (extend 2 i j (map (fun e => [e]) r1) e) <-> exists s, In s r1 /\ s <> e /\ (i = j -> needs_skipping s e = false) /\ mid = [s; e].
Proof.
  unfold extend. cbn [Z.eqb Pos.eqb]. rewrite in_flat_map. split.
  - intros (m & Hm & H). apply in_map_iff in Hm as (s & <- & Hs). destruct (mids_eqb_spec [s] [e]) as [E|E]; [destruct H|]. cbn [hd] in H. exists s. split; [exact Hs|].
    split; [intros ->; apply E; reflexivity|]. destruct (Z.eqb_spec i j) as [->|N]; cbn [andb] in H.
    + destruct (needs_skipping s e); [destruct H|]. destruct H as [<-|[]]. auto.
    + destruct H as [<-|[]]. split; [intros; contradiction|reflexivity].
  - intros (s & Hs & N & K & ->). exists [s]. split; [apply in_map_iff; exists s; auto|]. destruct (mids_eqb_spec [s] [e]) as [E|E]; [injection E; contradiction|]. cbn [hd].
    destruct (Z.eqb_spec i j) as [E'|N']; cbn [andb]; [rewrite K by exact E'|]; left; reflexivity.
Qed.
Lemma extend_2_NoDup i j r1 e : NoDup r1 -> NoDup (extend 2 i j (map (fun e => [e]) r1) e).
Proof.
  intros N. unfold extend. cbn [Z.eqb Pos.eqb]. apply NoDup_flat_map.
  - apply FinFun.Injective_map_NoDup; [intros a b H; injection H; auto|exact N].
  - intros m _. destruct (mids_eqb m [e]); [constructor|]. destruct (_ && _ && _); repeat constructor; intros [].
  - intros x y b _ _ H H'. destruct (mids_eqb x [e]); [destruct H|]. destruct (mids_eqb y [e]); [destruct H'|]. destruct (_ && _ && _) in H; [destruct H|]. destruct (_ && _ && _) in H'; [destruct H'|].
    destruct H as [<-|[]], H' as [H'|[]]. apply app_inj_tail in H' as [H' _]. auto.
Qed.
(* an entry: both parts are ascending and beside their labels *)
Definition good4 (n : Z) (b : brk) : Prop :=
  exists s s', b_mid b = [s; s'] /\ 1 <= b_i b <= b_j b /\ b_j b <= n /\ s <> s' /\ StronglySorted Z.lt s /\ StronglySorted Z.lt s' /\ incl s (beside n (b_i b) 0) /\ incl s' (beside n (b_j b) 0) /\
    2 <= Z.of_nat (length s) <= n / 2 /\ 2 <= Z.of_nat (length s') <= n / 2.
Lemma at_pair_4_In n i j b : 1 <= i <= n -> 1 <= j <= n -> In b (at_pair n 4 i j) -> b_i b = i /\ b_j b = j /\ good4 n b.
Proof.
  intros Hi Hj H. destruct (Z_lt_le_dec j i) as [L|L].
  - unfold at_pair, gen_N_at in H. change (4 mod 2 =? 0) with true in H. cbn [andb] in H. destruct (Z.gtb_spec i j); [destruct H|lia].
  - destruct (at_pair_4 n i j Hi Hj L) as (r1 & r2 & E & (_ & P1 & _) & (_ & P2 & _)). unfold at_pair in H. rewrite E in H. cbn [okl] in H. apply in_flat_map in H as (ang & _ & H).
    apply in_map_iff in H as (mid & <- & H). apply in_flat_map in H as (e & He & H). apply extend_2_In in H as (s & Hs & N & _ & ->). cbn [b_i b_j]. split; [reflexivity|]. split; [reflexivity|].
    apply P1 in Hs as (A & B & C & _). apply P2 in He as (A' & B' & C' & _). exists s, e. cbn [b_mid b_i b_j]. repeat split; auto; lia.
Qed.
Lemma at_pair_4_NoDup n i j : 1 <= i <= n -> 1 <= j <= n -> NoDup (at_pair n 4 i j).
Proof.
  intros Hi Hj. destruct (Z_lt_le_dec j i) as [L|L].
  - unfold at_pair, gen_N_at. change (4 mod 2 =? 0) with true. cbn [andb]. destruct (Z.gtb_spec i j); [constructor|lia].
  - destruct (at_pair_4 n i j Hi Hj L) as (r1 & r2 & E & (N1 & _) & (N2 & _)). unfold at_pair. rewrite E. cbn [okl]. apply NoDup_flat_map.
    + repeat constructor; cbn; intuition discriminate.
    + intros ang _. apply FinFun.Injective_map_NoDup; [intros a b H; injection H; auto|]. apply NoDup_flat_map; [exact N2| |].
      * intros e _. apply extend_2_NoDup, N1.
      * intros e e' m _ _ H H'. apply extend_2_In in H as (s & _ & _ & _ & ->), H' as (s' & _ & _ & _ & H'). injection H'; auto.
    + intros a a' b _ _ H H'. apply in_map_iff in H as (m & <- & _), H' as (m' & H' & _). injection H'; auto.
Qed.
Definition raw4 (n : Z) : list brk := flat_map (fun i => flat_map (at_pair n 4 i) (zrange 1 (n + 1))) (zrange 1 (n + 1)).
Lemma gen_4_raw n : gen_N n 4 = Ok (raw4 n).
Proof.
  apply gen_N_flat. intros i j Hi Hj. destruct (Z_lt_le_dec j i) as [L|L].
  - unfold gen_N_at. change (4 mod 2 =? 0) with true. cbn [andb]. destruct (Z.gtb_spec i j); [eauto|lia].
  - destruct (at_pair_4 n i j Hi Hj L) as (r1 & r2 & E & _). eauto.
Qed.
Lemma raw4_In n b : In b (raw4 n) -> good4 n b.
Proof. intros H. apply flat_pair_In in H as (i & j & Hi & Hj & H). apply (at_pair_4_In n i j b Hi Hj H). Qed.
Lemma raw4_NoDup n : NoDup (raw4 n).
Proof.
  apply flat_pair_NoDup. intros i j Hi Hj. split; [apply at_pair_4_NoDup; assumption|]. intros b H. destruct (at_pair_4_In n i j b Hi Hj H) as (A & B & _). auto.
Qed.
Definition list4 (n : Z) : list brk := drop_products n (raw4 n).
Lemma list4_In n b : In b (list4 n) -> good4 n b.
Proof. intros H. apply filter_In in H as [H _]. apply raw4_In, H. Qed.
Lemma list4_NoDup n : NoDup (list4 n). Proof. apply NoDup_filter, raw4_NoDup. Qed.
Lemma gen_4_eq ord n : gen_4 ord n = dedupe_loop ord n (list4 n) 0 (list4 n) (list4 n).
Proof. unfold gen_4. rewrite gen_4_raw. reflexivity. Qed.
(* removing never adds *)
Lemma remove1_incl x l l' : remove1 brk_eqb x l = Ok l' -> incl l' l.
Proof.
  intros E. destruct (in_dec (fun a b => match brk_eqb_spec a b with ReflectT _ e => left e | ReflectF _ n => right n end) x l) as [H|H].
  - destruct (remove1_ok brk_eqb brk_eqb_spec x l H) as (l1 & l2 & -> & _ & E'). rewrite E' in E. injection E as <-. intros y. rewrite !in_app_iff. cbn. tauto.
  - rewrite (remove1_err brk_eqb brk_eqb_spec x l H) in E. discriminate.
Qed.
Lemma step_incl ord n all i b l l' : dedupe_step ord n all i b l = Ok l' -> incl l' l.
Proof.
  unfold dedupe_step. destruct (negb _); [intros E; injection E as <-; apply incl_refl|]. cbv zeta. intros E.
  match type of E with rbind ?x _ = _ => destruct x as [l1|] eqn:E1; [|discriminate] end. cbn [rbind] in E.
  assert (I1 : incl l1 l).
  { repeat match type of E1 with context [if ?c then _ else _] => destruct c end; try (injection E1 as <-; apply incl_refl); eapply remove1_incl; exact E1. }
  assert (I2 : incl l' l1).
  { repeat match type of E with context [if ?c then _ else _] => destruct c end; try (injection E as <-; apply incl_refl); eapply remove1_incl; exact E. }
  eapply incl_tran; eassumption.
Qed.
Lemma loop_incl ord n all todo : forall i l l', dedupe_loop ord n all i todo l = Ok l' -> incl l' l.
Proof.
  induction todo as [|b todo IH]; intros i l l' E; cbn [dedupe_loop] in E; [injection E as <-; apply incl_refl|].
  destruct (dedupe_step ord n all i b l) as [l1|] eqn:E1; [|discriminate]. cbn [rbind] in E. eapply incl_tran; [eapply IH; exact E|eapply step_incl; exact E1].
Qed.
Theorem gen_4_good ord n l b : gen_4 ord n = Ok l -> In b l -> good4 n b.
Proof. rewrite gen_4_eq. intros E H. apply list4_In. exact (loop_incl _ _ _ _ _ _ _ E b H). Qed.
