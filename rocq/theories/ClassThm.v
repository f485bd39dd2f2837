(* Proofs about equivalence classes of ideals. *)
From Coq Require Import List ZArith Bool Lia Permutation Factorial Arith.
From Verif Require Import Base Fld Particle Index Phase Symm SymmSpec SymmThm Compute Str Gen GenThm2 Ideal IdealSpec IdealThm Class ClassSpec.
Import ListNotations.
Ltac inv H := inversion H; subst; clear H.

(* ---- dictionaries ---- *)
Lemma rule_eqb_ok r r' : rule_eqb r r' = true <-> r = r'.
Proof.
  unfold rule_eqb, Symm.zlist_eqb. destruct r as [p b], r' as [p' b']. cbn [fst snd]. destruct (list_eq_dec Z.eq_dec p p') as [->|N]; cbn [andb].
  - destruct b, b'; cbn; split; intros H; try reflexivity; discriminate.
  - split; [discriminate|]. intros H. injection H as H _. contradiction.
Qed.
Section Dict.
Context {B : Type}.
Lemma kset_new k (v : B) d : ~ In k (map fst d) -> kset rule_eqb k v d = d ++ [(k, v)].
Proof.
  induction d as [|[k' v'] d IH]; cbn; intros N; [reflexivity|]. destruct (rule_eqb k' k) eqn:E; [apply rule_eqb_ok in E; subst; tauto|]. rewrite IH by tauto. reflexivity.
Qed.
Lemma kset_fold (l : list (rule * B)) : forall d, NoDup (map fst (d ++ l)) -> fold_left (fun d kv => kset rule_eqb (fst kv) (snd kv) d) l d = d ++ l.
Proof.
  induction l as [|[k v] l IH]; intros d N; cbn [fold_left fst snd]; [rewrite app_nil_r; reflexivity|]. rewrite kset_new.
  - rewrite IH; [rewrite <- app_assoc; reflexivity|]. rewrite <- app_assoc. exact N.
  - rewrite map_app in N. cbn [map fst] in N. apply NoDup_remove_2 in N. intros H. apply N, in_or_app. left. exact H.
Qed.
Lemma kset_all (l : list (rule * B)) : NoDup (map fst l) -> fold_left (fun d kv => kset rule_eqb (fst kv) (snd kv) d) l [] = l.
Proof. intros N. exact (kset_fold l [] N). Qed.
End Dict.

(* ---- the first of every class ---- *)
Section Firsts.
Context {A B : Type}.
Variable eqv : B -> B -> bool.
Hypothesis Eq : equivalence eqv.
Lemma refl : forall x, eqv x x = true. Proof. apply Eq. Qed.
Lemma sym : forall x y, eqv x y = true -> eqv y x = true. Proof. apply Eq. Qed.
Lemma trans : forall x y z, eqv x y = true -> eqv y z = true -> eqv x z = true. Proof. apply Eq. Qed.
Implicit Types (l F : list (A * B)) (a : A * B).
Definition known a F : bool := existsb (fun x => eqv (snd x) (snd a)) F.
Definition keep F a := if known a F then F else F ++ [a].
Definition firsts l := fold_left keep l [].
Lemma firsts_snoc l a : firsts (l ++ [a]) = keep (firsts l) a.
Proof. unfold firsts. rewrite fold_left_app. reflexivity. Qed.
Lemma known_ok a F : known a F = true <-> exists x, In x F /\ eqv (snd x) (snd a) = true.
Proof. apply existsb_exists. Qed.
Lemma known_no a F : known a F = false <-> forall x, In x F -> eqv (snd x) (snd a) = false.
Proof.
  split.
  - intros H x I. destruct (eqv (snd x) (snd a)) eqn:E; [|reflexivity]. assert (known a F = true) by (apply known_ok; eauto). congruence.
  - intros H. destruct (known a F) eqn:E; [|reflexivity]. apply known_ok in E as (x & I & E). rewrite H in E by assumption. discriminate.
Qed.
Lemma firsts_incl l : incl (firsts l) l.
Proof.
  induction l as [|a l IH] using rev_ind; [intros x []|]. rewrite firsts_snoc. unfold keep. destruct (known a (firsts l)); intros x I.
  - apply in_or_app. left. apply IH, I.
  - apply in_app_or in I. apply in_or_app. destruct I as [I|I]; [left; apply IH, I|right; exact I].
Qed.
Lemma firsts_cover l a : In a l -> exists x, In x (firsts l) /\ eqv (snd x) (snd a) = true.
Proof.
  revert a. induction l as [|b l IH] using rev_ind; intros a I; [destruct I|]. rewrite firsts_snoc. apply in_app_or in I. unfold keep. destruct (known b (firsts l)) eqn:E.
  - destruct I as [I|[<-|[]]]; [apply IH, I|apply known_ok, E].
  - destruct I as [I|[<-|[]]].
    + destruct (IH a I) as (x & Ix & Ex). exists x. split; [apply in_or_app; left; exact Ix|exact Ex].
    + exists b. split; [apply in_or_app; right; left; reflexivity|apply refl].
Qed.
Lemma apart_snoc F a : apart eqv F -> (forall x, In x F -> eqv (snd x) (snd a) = false) -> apart eqv (F ++ [a]).
Proof.
  intros H N l1 x l2 y l3 E. destruct (exists_last (l := y :: l3)) as (l3' & z & Ez); [discriminate|].
  destruct l3' as [|y' l3'].
  - cbn in Ez. injection Ez as -> ->. assert (E' : F ++ [a] = (l1 ++ x :: l2) ++ [z]) by (rewrite E, <- app_assoc; reflexivity).
    apply app_inj_tail in E' as [E1 E2]. subst z. apply N. rewrite E1. apply in_or_app. right. left. reflexivity.
  - cbn in Ez. injection Ez as <- Ez. rewrite Ez in E. assert (E' : F ++ [a] = (l1 ++ x :: l2 ++ y :: l3') ++ [z]) by (rewrite E, <- !app_assoc; cbn; rewrite <- app_assoc; reflexivity).
    apply app_inj_tail in E' as [E1 E2]. eapply H. exact E1.
Qed.
Lemma firsts_apart l : apart eqv (firsts l).
Proof.
  induction l as [|a l IH] using rev_ind; [intros [|? ?]; discriminate|]. rewrite firsts_snoc. unfold keep. destruct (known a (firsts l)) eqn:E; [exact IH|].
  apply apart_snoc; [exact IH|]. apply known_no, E.
Qed.
Lemma apart_one F x y : apart eqv F -> In x F -> In y F -> eqv (snd x) (snd y) = true -> x = y.
Proof.
  intros H Ix Iy E. apply in_split in Ix as (l1 & l2 & ->). apply in_app_or in Iy as [Iy|[->|Iy]]; [|reflexivity|].
  - apply in_split in Iy as (m1 & m2 & ->). apply sym in E. rewrite (H m1 y m2 x l2) in E; [discriminate|]. rewrite <- app_assoc. reflexivity.
  - apply in_split in Iy as (m1 & m2 & ->). rewrite (H l1 x m1 y m2) in E; [discriminate|reflexivity].
Qed.
(* an entry comes before all others of its class *)
Lemma firsts_first l x : In x (firsts l) -> exists l1 l2, l = l1 ++ x :: l2 /\ forall y, In y l1 -> eqv (snd x) (snd y) = false.
Proof.
  induction l as [|a l IH] using rev_ind; [intros []|]. rewrite firsts_snoc. unfold keep. destruct (known a (firsts l)) eqn:E; intros I.
  - destruct (IH I) as (l1 & l2 & -> & H). exists l1, (l2 ++ [a]). split; [rewrite <- app_assoc; reflexivity|exact H].
  - apply in_app_or in I as [I|[<-|[]]].
    + destruct (IH I) as (l1 & l2 & -> & H). exists l1, (l2 ++ [a]). split; [rewrite <- app_assoc; reflexivity|exact H].
    + exists l, []. split; [reflexivity|]. intros y Iy. destruct (eqv (snd a) (snd y)) eqn:Ey; [|reflexivity]. destruct (firsts_cover l y Iy) as (x & Ix & Ex).
      assert (C : eqv (snd x) (snd a) = true) by (eapply trans; [exact Ex|apply sym; exact Ey]). rewrite (proj1 (known_no a (firsts l)) E x Ix) in C. discriminate.
Qed.
Lemma firsts_head a l : exists F, firsts (a :: l) = a :: F.
Proof.
  unfold firsts. cbn [fold_left]. change (keep [] a) with [a]. assert (G : forall l F, exists F', fold_left keep l (a :: F) = a :: F'); [|apply G].
  clear. induction l as [|b l IH]; intros F; cbn [fold_left]; [eauto|]. unfold keep at 2. destruct (known b (a :: F)); [apply IH|]. cbn [app]. apply IH.
Qed.
(* the dictionary from values to keys *)
Definition keys_of l (x : A * B) : list A := map fst (filter (fun y => eqv (snd x) (snd y)) l).
Lemma vappend_known F (ks : A * B -> list A) a : apart eqv F -> known a F = true ->
  vappend eqv (snd a) (fst a) (map (fun x => (snd x, ks x)) F) = map (fun x => (snd x, ks x ++ (if eqv (snd x) (snd a) then [fst a] else []))) F.
Proof.
  intros Ap Kn. assert (G : forall F1, apart eqv F1 -> known a F1 = true -> vappend eqv (snd a) (fst a) (map (fun x => (snd x, ks x)) F1) = map (fun x => (snd x, ks x ++ (if eqv (snd x) (snd a) then [fst a] else []))) F1); [|apply G; assumption].
  clear F Ap Kn. induction F1 as [|x F IH]; intros Ap Kn; [discriminate|]. cbn [map vappend]. destruct (eqv (snd x) (snd a)) eqn:E.
  - f_equal. apply map_ext_in. intros y Iy. destruct (eqv (snd y) (snd a)) eqn:Ey; [|rewrite app_nil_r; reflexivity]. exfalso. apply in_split in Iy as (m1 & m2 & ->).
    assert (C := Ap [] x m1 y m2 eq_refl). assert (C' : eqv (snd x) (snd y) = true) by (eapply trans; [exact E|apply sym, Ey]). congruence.
  - rewrite app_nil_r. f_equal. apply IH; [intros l1 u l2 v l3 ->; apply (Ap (x :: l1) u l2 v l3 eq_refl)|]. unfold known in Kn. cbn [existsb] in Kn. rewrite E in Kn. exact Kn.
Qed.
Lemma vappend_unknown F (ks : A * B -> list A) a : known a F = false ->
  vappend eqv (snd a) (fst a) (map (fun x => (snd x, ks x)) F) = map (fun x => (snd x, ks x)) F ++ [(snd a, [fst a])].
Proof.
  induction F as [|x F IH]; intros Kn; [reflexivity|]. cbn [map vappend app]. unfold known in Kn. cbn [existsb] in Kn. apply orb_false_elim in Kn as [E Kn]. rewrite E. f_equal. apply IH, Kn.
Qed.
Lemma groups l : fold_left (fun acc kv => vappend eqv (snd kv) (fst kv) acc) l [] = map (fun x => (snd x, keys_of l x)) (firsts l).
Proof.
  induction l as [|a l IH] using rev_ind; [reflexivity|]. rewrite fold_left_app, IH, firsts_snoc. cbn [fold_left]. unfold keep.
  assert (K : forall x, keys_of (l ++ [a]) x = keys_of l x ++ (if eqv (snd x) (snd a) then [fst a] else [])).
  { intros x. unfold keys_of. rewrite filter_app, map_app. cbn [filter]. destruct (eqv (snd x) (snd a)); reflexivity. }
  destruct (known a (firsts l)) eqn:E.
  - rewrite vappend_known by (try assumption; apply firsts_apart). apply map_ext. intros x. rewrite K. reflexivity.
  - rewrite vappend_unknown by assumption. rewrite map_app. f_equal.
    + apply map_ext_in. intros x Ix. rewrite K. rewrite (proj1 (known_no _ _) E x Ix), app_nil_r. reflexivity.
    + cbn [map]. rewrite K, refl. assert (N : keys_of l a = []); [|rewrite N; reflexivity]. unfold keys_of. destruct (filter _ l) as [|y t] eqn:Ef; [reflexivity|exfalso].
      assert (I : In y (y :: t)) by (left; reflexivity). rewrite <- Ef in I. apply filter_In in I as [Iy Ey]. destruct (firsts_cover l y Iy) as (x & Ix & Ex).
      assert (C : eqv (snd x) (snd a) = true) by (eapply trans; [exact Ex|apply sym, Ey]). rewrite (proj1 (known_no _ _) E x Ix) in C. discriminate.
Qed.
Lemma keys_first l x : In x (firsts l) -> exists t, keys_of l x = fst x :: t.
Proof.
  intros I. destruct (firsts_first l x I) as (l1 & l2 & -> & H). unfold keys_of. rewrite filter_app. cbn [filter]. rewrite refl.
  assert (N : filter (fun y => eqv (snd x) (snd y)) l1 = []); [|rewrite N; cbn; eauto].
  destruct (filter _ l1) as [|y t] eqn:Ef; [reflexivity|exfalso]. assert (J : In y (y :: t)) by (left; reflexivity). rewrite <- Ef in J. apply filter_In in J as [Iy Ey]. rewrite H in Ey by assumption. discriminate.
Qed.
Lemma firsts_keys l : NoDup (map fst l) -> NoDup (map fst (firsts l)).
Proof.
  induction l as [|a l IH] using rev_ind; intros N; [constructor|]. rewrite firsts_snoc. unfold keep. rewrite map_app in N. cbn [map] in N. assert (N1 := NoDup_remove_1 _ _ _ N). rewrite app_nil_r in N1. destruct (known a (firsts l)); [apply IH, N1|].
  rewrite map_app. cbn [map]. apply (Permutation_NoDup (Permutation_cons_append (map fst (firsts l)) (fst a))). constructor; [|apply IH, N1].
  apply NoDup_remove_2 in N. rewrite app_nil_r in N. intros I. apply N. apply in_map_iff in I as (x & <- & I). apply in_map. apply firsts_incl, I.
Qed.
(* counting *)
Lemma filter_split {C} (f : C -> bool) (l : list C) : length l = (length (filter f l) + length (filter (fun y => negb (f y)) l))%nat.
Proof. induction l as [|y l IH]; [reflexivity|]. cbn [filter length]. destruct (f y); cbn [negb length]; lia. Qed.
Lemma count_classes l : length l = list_sum (map (fun x => length (filter (fun y => eqv (snd x) (snd y)) l)) (firsts l)).
Proof.
  assert (G : forall F l', apart eqv F -> (forall y, In y l' -> exists x, In x F /\ eqv (snd x) (snd y) = true) ->
    length l' = list_sum (map (fun x => length (filter (fun y => eqv (snd x) (snd y)) l')) F)).
  { clear l. intros F. induction F as [|x F IH]; intros l' Ap Co.
    - destruct l' as [|y t]; [reflexivity|]. destruct (Co y (or_introl eq_refl)) as (? & [] & _).
    - cbn [map]. change (list_sum (?n :: ?t)) with (n + list_sum t)%nat.
      rewrite (filter_split (fun y => eqv (snd x) (snd y)) l'). f_equal.
      rewrite (IH (filter (fun y => negb (eqv (snd x) (snd y))) l')).
      + f_equal. apply map_ext_in. intros z Iz. f_equal. assert (Ne : eqv (snd x) (snd z) = false) by (apply in_split in Iz as (m1 & m2 & ->); apply (Ap [] x m1 z m2 eq_refl)).
        clear - Ne Eq. induction l' as [|y l' IH]; [reflexivity|]. cbn [filter]. destruct (eqv (snd x) (snd y)) eqn:E; cbn [negb filter].
        * destruct (eqv (snd z) (snd y)) eqn:E'; [|exact IH]. assert (C : eqv (snd x) (snd z) = true) by (eapply trans; [exact E|apply sym, E']). congruence.
        * rewrite IH. reflexivity.
      + intros l1 u l2 v l3 ->. apply (Ap (x :: l1) u l2 v l3 eq_refl).
      + intros y Iy. apply filter_In in Iy as [Iy Ny]. destruct (Co y Iy) as (u & [<-|Iu] & Eu); [rewrite Eu in Ny; discriminate|eauto]. }
  apply G; [apply firsts_apart|apply firsts_cover].
Qed.
End Firsts.
