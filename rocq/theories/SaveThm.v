(* Proofs about Save.v. *)
From Coq Require Import Ascii String.
From Coq Require Import List ZArith Bool Lia.
From Verif Require Import Base Symm Str Masses MassesThm Save SaveSpec.
Import ListNotations.
Open Scope Z_scope.

Lemma flat_map_flat {A B C} (f : B -> list C) (g : A -> list B) l : flat_map f (flat_map g l) = flat_map (fun x => flat_map f (g x)) l.
Proof. induction l as [|x l IH]; [reflexivity|]. cbn [flat_map]. rewrite flat_map_app, IH. reflexivity. Qed.
Lemma base_stem i : base_name i = stem i ++ lit "1.m".
Proof.
  unfold base_name, stem. destruct i as [|c i]; [reflexivity|]. f_equal. unfold replace1. rewrite !flat_map_flat.
  apply flat_map_ext. intros x. destruct (Z.eqb_spec x 10216) as [->|N1]; [reflexivity|]. destruct (Z.eqb_spec x 10217) as [->|N2]; [reflexivity|].
  destruct (Z.eqb_spec x 91) as [->|N3]; [reflexivity|]. destruct (Z.eqb_spec x 93) as [->|N4]; [reflexivity|].
  destruct (Z.eqb_spec x 124) as [->|N5]; [reflexivity|].
  apply Z.eqb_neq in N1, N2, N3, N4, N5. cbn [flat_map]. rewrite N2. cbn [flat_map app]. rewrite N3. cbn [flat_map app]. rewrite N4. cbn [flat_map app]. rewrite N5. reflexivity.
Qed.
Lemma second_name i : file_name true (base_name i) = stem i ++ lit "12.m".
Proof.
  unfold file_name. rewrite base_stem. rewrite app_length. change (length (lit "1.m")) with 3%nat.
  replace (length (stem i) + 3 - 2)%nat with (length (stem i) + 1)%nat by lia.
  rewrite firstn_app_2, <- app_assoc. reflexivity.
Qed.
Lemma ends_differ (a b : pystr) : a ++ lit "1.m" <> b ++ lit "12.m".
Proof. intros H. apply (f_equal (@rev Z)) in H. rewrite !rev_app_distr in H. cbn in H. inversion H. Qed.
Section Save.
Context {C : Type}.
Implicit Types (fs : dict C) (v : C).
Lemma str_eqb_refl' k : str_eqb k k = true.
Proof. destruct (str_eqb_spec k k); congruence. Qed.
Lemma get_set_other (k k' : pystr) v fs : k' <> k -> dict_get k' (dict_set k v fs) = dict_get k' fs.
Proof. intros H. rewrite dict_get_set. destruct (str_eqb_spec k' k); [contradiction|reflexivity]. Qed.
Lemma get_set_same (k : pystr) v fs : dict_get k (dict_set k v fs) = Some v.
Proof. rewrite dict_get_set, str_eqb_refl'. reflexivity. Qed.
Theorem save_first i v fs : dict_get (stem i ++ lit "1.m") fs = None ->
  dict_get (stem i ++ lit "1.m") (save i v fs) = Some v /\ (forall k, k <> stem i ++ lit "1.m" -> dict_get k (save i v fs) = dict_get k fs).
Proof. intros H. unfold save. rewrite base_stem, H. cbn [file_name]. split; [apply get_set_same|intros k Hk; apply get_set_other, Hk]. Qed.
Theorem save_later i v fs : dict_get (stem i ++ lit "1.m") fs <> None ->
  dict_get (stem i ++ lit "12.m") (save i v fs) = Some v /\ (forall k, k <> stem i ++ lit "12.m" -> dict_get k (save i v fs) = dict_get k fs).
Proof.
  intros H. unfold save. rewrite <- base_stem in H. destruct (dict_get (base_name i) fs); [|congruence]. rewrite second_name.
  split; [apply get_set_same|intros k Hk; apply get_set_other, Hk].
Qed.
Theorem first_kept i v l : forall fs, dict_get (stem i ++ lit "1.m") fs = Some v -> dict_get (stem i ++ lit "1.m") (saves l fs) = Some v.
Proof.
  induction l as [|[j w] l IH]; intros fs H; [exact H|]. cbn [saves fold_left fst snd]. apply IH.
  destruct (dict_get (stem j ++ lit "1.m") fs) as [u|] eqn:E.
  - destruct (save_later j w fs ltac:(congruence)) as [_ K]. rewrite K; [exact H|apply ends_differ].
  - destruct (save_first j w fs E) as [_ K]. rewrite K; [exact H|]. intros Q. congruence.
Qed.
Theorem two_kept i v w fs : dict_get (stem i ++ lit "1.m") fs = None ->
  dict_get (stem i ++ lit "1.m") (saves [(i, v); (i, w)] fs) = Some v /\ dict_get (stem i ++ lit "12.m") (saves [(i, v); (i, w)] fs) = Some w.
Proof.
  intros H. cbn [saves fold_left fst snd]. destruct (save_first i v fs H) as [A _].
  destruct (save_later i w (save i v fs) ltac:(congruence)) as [B K]. split; [|exact B]. rewrite K; [exact A|apply ends_differ].
Qed.
Theorem third_lost i u v w fs : dict_get (stem i ++ lit "1.m") fs = None ->
  dict_get (stem i ++ lit "12.m") (saves [(i, u); (i, v); (i, w)] fs) = Some w /\
  (forall k, k <> stem i ++ lit "1.m" -> k <> stem i ++ lit "12.m" -> dict_get k (saves [(i, u); (i, v); (i, w)] fs) = dict_get k fs).
Proof.
  intros H. cbn [saves fold_left fst snd]. destruct (save_first i u fs H) as [A A'].
  destruct (save_later i v (save i u fs) ltac:(congruence)) as [B B'].
  assert (A2 : dict_get (stem i ++ lit "1.m") (save i v (save i u fs)) = Some u) by (rewrite B'; [exact A|apply ends_differ]).
  destruct (save_later i w (save i v (save i u fs)) ltac:(congruence)) as [D D']. split; [exact D|].
  intros k H1 H2. rewrite D', B', A' by assumption. reflexivity.
Qed.
End Save.
