(* Proofs about Sort.v. *)
From Coq Require Import List ZArith Bool Lia Permutation Sorted.
From Verif Require Import Base Phase Index IndexThm DetThm Sort.
Import ListNotations.

Section Sort.
Context {I V : Type} (gt : V -> V -> bool).
Hypothesis asym : forall a b, gt a b = true -> gt b a = false.
Hypothesis ntrans : forall a b c, gt a b = false -> gt b c = false -> gt a c = false.

(* the passes on a list of pairs *)
Notation P := (V * I)%type.
Fixpoint bub (l : list P) (n : nat) : list P * bool :=
  match n, l with
  | S n', a :: ((b :: t) as l') =>
      if gt (fst a) (fst b) then let '(r, _) := bub (a :: t) n' in (b :: r, false)
      else let '(r, k) := bub l' n' in (a :: r, k)
  | _, _ => (l, true)
  end.
Lemma nth_mid {A} (l1 : list A) x l2 : nth_error (l1 ++ x :: l2) (length l1) = Some x.
Proof. rewrite nth_error_app2, Nat.sub_diag by lia. reflexivity. Qed.
Lemma nth_mid1 {A} (l1 : list A) x y l2 : nth_error (l1 ++ x :: y :: l2) (S (length l1)) = Some y.
Proof. rewrite nth_error_app2 by lia. replace (S (length l1) - length l1)%nat with 1%nat by lia. reflexivity. Qed.

Lemma swap_app {A} (l1 : list A) x y l2 : swap_at (length l1) (l1 ++ x :: y :: l2) = l1 ++ y :: x :: l2.
Proof.
  unfold swap_at. rewrite nth_mid, nth_mid1.
  rewrite firstn_app, Nat.sub_diag, firstn_all, firstn_O, app_nil_r. f_equal. f_equal. f_equal.
  rewrite skipn_app. replace (S (S (length l1)) - length l1)%nat with 2%nat by lia. rewrite skipn_all2 by lia. reflexivity.
Qed.
Lemma pass_bub n : forall (done l : list P) brk, length l = S n ->
  pass gt (seq (length done) n) (map fst (done ++ l)) (map snd (done ++ l)) brk =
  (map fst (done ++ fst (bub l n)), map snd (done ++ fst (bub l n)), (brk && snd (bub l n))%bool).
Proof.
  induction n as [|n IH]; intros done l brk L.
  - destruct l as [|a [|b t]]; try discriminate. cbn. rewrite andb_true_r. reflexivity.
  - destruct l as [|a [|b t]]; try discriminate. cbn [seq pass bub].
    rewrite !map_app. cbn [map].
    pose proof (nth_mid (map fst done) (fst a) (fst b :: map fst t)) as N1. rewrite map_length in N1. rewrite N1.
    pose proof (nth_mid1 (map fst done) (fst a) (fst b) (map fst t)) as N2. rewrite map_length in N2. rewrite N2.
    destruct (gt (fst a) (fst b)).
    + pose proof (swap_app (map fst done) (fst a) (fst b) (map fst t)) as S1. rewrite map_length in S1. rewrite S1.
      pose proof (swap_app (map snd done) (snd a) (snd b) (map snd t)) as S2. rewrite map_length in S2. rewrite S2.
      specialize (IH (done ++ [b]) (a :: t) false ltac:(cbn in *; lia)). rewrite app_length in IH. cbn [length] in IH.
      rewrite Nat.add_1_r in IH. rewrite !map_app in IH. cbn [map] in IH. rewrite <- !app_assoc in IH. cbn [app] in IH. rewrite IH.
      destruct (bub (a :: t) n) as [r k]. cbn [fst snd map app]. rewrite andb_false_r. reflexivity.
    + specialize (IH (done ++ [a]) (b :: t) brk ltac:(cbn in *; lia)). rewrite app_length in IH. cbn [length] in IH.
      rewrite Nat.add_1_r in IH. rewrite !map_app in IH. cbn [map] in IH. rewrite <- !app_assoc in IH. cbn [app] in IH. rewrite IH.
      destruct (bub (b :: t) n) as [r k]. cbn [fst snd map app]. reflexivity.
Qed.

Lemma bub_perm n : forall l, Permutation (fst (bub l n)) l.
Proof.
  induction n as [|n IH]; intros l; [reflexivity|]. destruct l as [|a [|b t]]; try reflexivity. cbn [bub].
  destruct (gt (fst a) (fst b)).
  - specialize (IH (a :: t)). destruct (bub (a :: t) n) as [r k]. cbn [fst] in *. rewrite IH. constructor.
  - specialize (IH (b :: t)). destruct (bub (b :: t) n) as [r k]. cbn [fst] in *. rewrite IH. reflexivity.
Qed.
(* the number of pairs in the wrong order *)
Definition above (a : P) (l : list P) : nat := length (filter (fun b => gt (fst a) (fst b)) l).
Fixpoint inversions (l : list P) : nat := match l with [] => 0 | a :: t => above a t + inversions t end.
Lemma above_perm a l l' : Permutation l l' -> above a l = above a l'.
Proof.
  unfold above. induction 1; cbn; auto; repeat match goal with |- context [gt ?x ?y] => destruct (gt x y) end; cbn; auto; congruence.
Qed.
Lemma bub_inv n : forall l, length l = S n -> (snd (bub l n) = true -> fst (bub l n) = l) /\
  (snd (bub l n) = false -> inversions (fst (bub l n)) < inversions l)%nat /\ (inversions (fst (bub l n)) <= inversions l)%nat.
Proof.
  induction n as [|n IH]; intros l L.
  - cbn. destruct l; cbn; repeat split; auto; discriminate.
  - destruct l as [|a [|b t]]; try discriminate. cbn [bub]. destruct (gt (fst a) (fst b)) eqn:G.
    + specialize (IH (a :: t) ltac:(cbn in *; lia)). pose proof (bub_perm n (a :: t)) as PP. destruct (bub (a :: t) n) as [r k]. cbn [fst snd] in *.
      destruct IH as (_ & _ & IH).
      assert (LT : (inversions (b :: r) < inversions (a :: b :: t))%nat).
      { cbn [inversions]. rewrite (above_perm b _ _ PP). unfold above at 1 2. cbn [filter]. rewrite G, (asym _ _ G). cbn [inversions length] in *.
        fold (above b t). fold (above a t). lia. }
      split; [discriminate|]. split; [auto|lia].
    + specialize (IH (b :: t) ltac:(cbn in *; lia)). pose proof (bub_perm n (b :: t)) as PP. destruct (bub (b :: t) n) as [r k]. cbn [fst snd] in *.
      destruct IH as (I1 & I2 & I3). cbn [inversions] in *. rewrite (above_perm a _ _ PP).
      split; [intros H; rewrite (I1 H); reflexivity|]. split; [intros H; specialize (I2 H); lia|lia].
Qed.
Definition asc (l : list P) : Prop := StronglySorted (fun a b => gt (fst a) (fst b) = false) l.
Lemma bub_sorted n : forall l, length l = S n -> snd (bub l n) = true -> Sorted (fun a b => gt (fst a) (fst b) = false) l.
Proof.
  induction n as [|n IH]; intros l L H.
  - destruct l as [|a [|b t]]; try discriminate. repeat constructor.
  - destruct l as [|a [|b t]]; try discriminate. cbn [bub] in H. destruct (gt (fst a) (fst b)) eqn:G.
    + destruct (bub (a :: t) n). discriminate.
    + specialize (IH (b :: t) ltac:(cbn in *; lia)). destruct (bub (b :: t) n) as [r k]. cbn [snd] in *. constructor; [auto|constructor; exact G].
Qed.

Lemma bubble_thm fuel : forall l, (inversions l < fuel)%nat ->
  exists l', bubble gt fuel (map fst l) (map snd l) = Ok (map fst l', map snd l') /\ Permutation l' l /\ asc l'.
Proof.
  induction fuel as [|fuel IH]; intros l H; [lia|]. cbn [bubble]. destruct l as [|a t].
  - exists []. cbn. split; [reflexivity|]. split; [reflexivity|constructor].
  - rewrite map_length. replace (length (a :: t) - 1)%nat with (length t) by (cbn; lia).
    pose proof (pass_bub (length t) [] (a :: t) true eq_refl) as E. cbn [app length] in E. rewrite E. cbn [andb].
    destruct (bub_inv (length t) (a :: t) eq_refl) as (B1 & B2 & _).
    destruct (snd (bub (a :: t) (length t))) eqn:S1.
    + exists (a :: t). rewrite (B1 eq_refl). split; [reflexivity|]. split; [reflexivity|].
      apply Sorted_StronglySorted; [intros x y z; apply ntrans|]. apply (bub_sorted (length t)); auto.
    + specialize (B2 eq_refl). destruct (IH (fst (bub (a :: t) (length t))) ltac:(lia)) as (l' & R & PP & A).
      exists l'. split; [exact R|]. split; [|exact A]. rewrite PP. apply bub_perm.
Qed.
Lemma inversions_bound l : (inversions l <= length l * length l)%nat.
Proof.
  induction l as [|a t IH]; cbn [inversions length]; [lia|].
  assert (above a t <= length t)%nat by (unfold above; clear; induction t as [|b t IH]; cbn; [lia|destruct (gt _ _); cbn; lia]). nia.
Qed.

Lemma small_filter threshold (l : list P) : asc l ->
  small_of gt threshold (map fst l) (map snd l) = map snd (filter (fun x => negb (gt (fst x) threshold)) l).
Proof.
  induction 1 as [|a t S0 IH F]; [reflexivity|]. cbn [map small_of filter]. destruct (gt (fst a) threshold) eqn:G; cbn [negb].
  - replace (filter (fun x => negb (gt (fst x) threshold)) t) with (@nil P); [reflexivity|]. symmetry. clear IH.
    induction t as [|b t IHt]; [reflexivity|]. inversion F as [|? ? G1 F1]; subst. inversion S0; subst. cbn [filter].
    destruct (gt (fst b) threshold) eqn:G2; [cbn; auto|]. exfalso. pose proof (ntrans _ _ _ G1 G2). congruence.
  - cbn [map]. rewrite IH. reflexivity.
Qed.
Lemma big_filter inverse (l : list P) : big_of gt inverse (map fst l) (map snd l) = map snd (filter (fun x => negb (gt inverse (fst x))) l).
Proof. induction l as [|a t IH]; [reflexivity|]. cbn [map big_of filter]. destruct (gt inverse (fst a)); cbn [negb]; [exact IH|cbn [map]; rewrite IH; reflexivity]. Qed.

Lemma moduli_ok (value : I -> result V) is_nan silent xs vs : moduli value is_nan silent xs = Ok (Some vs) -> Forall2 (fun x v => value x = Ok v) xs vs.
Proof.
  revert vs. induction xs as [|x xs IH]; intros vs H; cbn [moduli] in H.
  - inversion H. constructor.
  - unfold rbind in H. destruct (value x) as [v|] eqn:E; [|discriminate]. destruct (_ && _)%bool; [discriminate|].
    destruct (moduli _ _ _ xs) as [[vs'|]|]; try discriminate. inversion H. constructor; [exact E|apply IH; reflexivity].
Qed.
Lemma moduli_total (value : I -> result V) is_nan silent xs vs : Forall2 (fun x v => value x = Ok v) xs vs ->
  (silent = true \/ Forall (fun v => is_nan v = false) vs) -> moduli value is_nan silent xs = Ok (Some vs).
Proof.
  intros H N. induction H as [|x v xs vs E H IH]; [reflexivity|]. cbn [moduli]. rewrite E. cbn [rbind].
  assert (Z : (is_nan v && negb silent)%bool = false).
  { destruct N as [->|N]; [apply andb_false_r|]. inversion N; subst. rewrite H2. reflexivity. }
  rewrite Z, IH; [reflexivity|]. destruct N as [N|N]; [auto|]. inversion N; auto.
Qed.

Theorem consistency_thm fuel mc os (value : I -> result V) is_nan silent threshold inverse xs vs :
  Forall2 (fun x v => value x = Ok v) xs vs -> (silent = true \/ Forall (fun v => is_nan v = false) vs) ->
  (length xs * length xs < fuel)%nat ->
  exists l, Permutation l (combine vs xs) /\ asc l /\
    consistency gt fuel mc os value is_nan silent threshold inverse xs =
      Ok (mc, os, map snd (filter (fun x => negb (gt inverse (fst x))) l), map snd (filter (fun x => negb (gt (fst x) threshold)) l)).
Proof.
  intros F N FU. assert (L : length xs = length vs) by (clear -F; induction F; cbn; auto).
  assert (C : forall (ys : list I) (ws : list V), length ys = length ws -> map fst (combine ws ys) = ws /\ map snd (combine ws ys) = ys /\ length (combine ws ys) = length ys).
  { clear. induction ys as [|y ys IH]; intros [|w ws] L; try discriminate; cbn; auto. destruct (IH ws ltac:(cbn in L; lia)) as (-> & -> & ->). auto. }
  destruct (C xs vs L) as (C1 & C2 & C3).
  destruct (bubble_thm fuel (combine vs xs)) as (l & B & PP & A).
  { pose proof (inversions_bound (combine vs xs)). rewrite C3 in H. lia. }
  exists l. split; [exact PP|]. split; [exact A|]. unfold consistency.
  rewrite (moduli_total value is_nan silent xs vs F N). cbn [rbind]. rewrite C1, C2 in B. rewrite B. cbn [rbind fst snd].
  rewrite (small_filter threshold l A), big_filter. reflexivity.
Qed.
Theorem consistency_err fuel mc os (value : I -> result V) is_nan silent threshold inverse (xs : list I) x e :
  In x xs -> value x = Err e -> exists r, consistency gt fuel mc os value is_nan silent threshold inverse xs = r /\ (r = Ok (false, false, [], []) \/ exists e', r = Err e').
Proof.
  intros IN E. eexists. split; [reflexivity|]. unfold consistency. destruct (moduli value is_nan silent xs) as [[vs|]|e'] eqn:M; cbn [rbind]; eauto.
  exfalso. apply moduli_ok in M. clear -IN E M. induction M; [contradiction|]. destruct IN as [->|IN]; [congruence|auto].
Qed.
End Sort.


Lemma pairs_of_In l : StronglySorted Z.lt l -> forall x y, In (x, y) (pairs_of l) <-> In x l /\ In y l /\ (x < y)%Z.
Proof.
  induction 1 as [|a l S0 IH F]; intros x y; cbn [pairs_of In]; [tauto|]. rewrite Forall_forall in F.
  rewrite in_app_iff, IH, in_map_iff. split.
  - intros [(z & E & H)|H]; [inversion E; subst; specialize (F _ H); auto|tauto].
  - intros ([->|X] & [->|Y] & L); [lia|left; eauto| |auto]. specialize (F _ X). lia.
Qed.
Lemma pairs_of_NoDup l : NoDup l -> NoDup (pairs_of l).
Proof.
  induction 1 as [|a l H N IH]; cbn [pairs_of]; [constructor|]. apply NoDup_app'; [|exact IH|].
  - apply FinFun.Injective_map_NoDup; [intros x y E; congruence|exact N].
  - intros [x y] H1 H2. apply in_map_iff in H1 as (z & E & _). inversion E; subst. apply H. clear -H2.
    induction l as [|b l IH]; cbn in H2; [contradiction|]. apply in_app_iff in H2 as [H2|H2]; [|right; auto].
    apply in_map_iff in H2 as (z & E & _). inversion E; subst. left. reflexivity.
Qed.
Lemma upto_sorted n : StronglySorted Z.lt (upto n).
Proof.
  unfold upto. generalize 1%nat. induction n as [|n IH]; intros k; cbn; [constructor|]. constructor; [apply IH|].
  apply Forall_forall. intros x Hx. apply in_map_iff in Hx as (z & <- & Hz). apply in_seq in Hz. lia.
Qed.
Lemma upto_In n x : In x (upto n) <-> (1 <= x <= Z.of_nat n)%Z.
Proof.
  unfold upto. rewrite in_map_iff. split.
  - intros (z & <- & Hz). apply in_seq in Hz. lia.
  - intros H. exists (Z.to_nat x). split; [lia|]. apply in_seq. lia.
Qed.
Theorem default_thm n : NoDup (default_invars n) /\ forall an x y, In (an, (x, y)) (default_invars n) <-> (1 <= x < y)%Z /\ (y <= Z.of_nat n)%Z.
Proof.
  assert (N : NoDup (pairs_of (upto n))).
  { apply pairs_of_NoDup. unfold upto. apply FinFun.Injective_map_NoDup; [intros x y; lia|apply seq_NoDup]. }
  split.
  - unfold default_invars. apply NoDup_app'.
    + apply FinFun.Injective_map_NoDup; [intros x y E; congruence|exact N].
    + apply FinFun.Injective_map_NoDup; [intros x y E; congruence|exact N].
    + intros x H1 H2. apply in_map_iff in H1 as (? & <- & _). apply in_map_iff in H2 as (? & E & _). discriminate.
  - intros an x y. unfold default_invars. rewrite in_app_iff, !in_map_iff.
    pose proof (pairs_of_In (upto n) (upto_sorted n) x y) as PI. rewrite !upto_In in PI. split.
    + intros [(z & E & H)|(z & E & H)]; inversion E; subst; apply PI in H; lia.
    + intros H. assert (H' : In (x, y) (pairs_of (upto n))) by (apply PI; lia). destruct an; [left|right]; eauto.
Qed.

Theorem consistency_nan {I V : Type} (gt : V -> V -> bool) fuel mc os (value : I -> result V) is_nan threshold inverse xs vs :
  Forall2 (fun x v => value x = Ok v) xs vs -> Exists (fun v => is_nan v = true) vs ->
  consistency gt fuel mc os value is_nan false threshold inverse xs = Ok (false, false, [], []).
Proof.
  intros F E. unfold consistency. replace (moduli value is_nan false xs) with (@Ok (option (list V)) None); [reflexivity|]. symmetry.
  induction F as [|x v xs vs Ev F IH]; [inversion E|]. cbn [moduli]. rewrite Ev. cbn [rbind]. destruct (is_nan v) eqn:N; [reflexivity|]. cbn [andb].
  inversion E; subst; [congruence|]. rewrite IH by assumption. reflexivity.
Qed.
