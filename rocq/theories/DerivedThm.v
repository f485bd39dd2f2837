(* Proofs about the derived lists. *)
From Coq Require Import Ascii String.
From Coq Require Import List ZArith Bool Lia Sorted.
From Verif Require Import Base Str Symm Gen GenSpec GenThm GenThm2 GenFull Derived DerivedSpec.
Import ListNotations.
Open Scope Z_scope.

Lemma sums_app a b : sums (a ++ b) = (sums a + sums b)%nat.
Proof. unfold sums. rewrite filter_app, app_length. reflexivity. Qed.
Lemma digits_sums f : forall n acc, sums (map (Z.add 48) (digits_fuel f n acc)) = sums (map (Z.add 48) acc).
Proof.
  induction f as [|f IH]; intros n acc; [reflexivity|]. cbn [digits_fuel].
  assert (M := Z.mod_pos_bound n 10 ltac:(lia)).
  assert (E : sums (map (Z.add 48) (n mod 10 :: acc)) = sums (map (Z.add 48) acc)).
  { unfold sums. cbn [map filter]. destruct (Z.eqb_spec 40 (48 + n mod 10)); [lia|reflexivity]. }
  cbv zeta. destruct (n / 10 =? 0); [exact E|]. rewrite IH. exact E.
Qed.
Lemma sums_dec n : sums (dec n) = 0%nat.
Proof. unfold dec, str. rewrite digits_sums. reflexivity. Qed.
Lemma digits_nil f : forall n acc, acc <> [] -> digits_fuel f n acc <> [].
Proof. induction f as [|f IH]; intros n acc H; [exact H|]. cbn [digits_fuel]. cbv zeta. destruct (n / 10 =? 0); [discriminate|]. apply IH. discriminate. Qed.
Lemma dec_some n : dec n <> [].
Proof.
  unfold dec, str. cbn [digits_fuel]. cbv zeta. destruct (n / 10 =? 0); [discriminate|]. intros H. apply map_eq_nil in H. revert H. apply digits_nil. discriminate.
Qed.
Lemma sums_join l : sums (joinp (lit "+") (map dec l)) = 0%nat.
Proof.
  induction l as [|a l IH]; [reflexivity|]. cbn [map]. destruct l as [|b l]; [apply sums_dec|].
  change (joinp (lit "+") (dec a :: map dec (b :: l))) with (dec a ++ lit "+" ++ joinp (lit "+") (map dec (b :: l))).
  rewrite !sums_app, sums_dec, IH. reflexivity.
Qed.
Lemma sums_mid m : sums (render_mid m) = 1%nat.
Proof. unfold render_mid. rewrite !sums_app, sums_join. reflexivity. Qed.
Lemma sums_mids ms : sums (joinp [BAR] (map render_mid ms)) = length ms.
Proof.
  induction ms as [|a l IH]; [reflexivity|]. cbn [map]. destruct l as [|b l]; [apply sums_mid|].
  change (joinp [BAR] (render_mid a :: map render_mid (b :: l))) with (render_mid a ++ [BAR] ++ joinp [BAR] (map render_mid (b :: l))).
  rewrite !sums_app, sums_mid, IH. reflexivity.
Qed.
(* a bracket has as many sums as middle parts *)
Lemma render_sums b : bracketed (render b) = true /\ sums (render b) = length (b_mid b).
Proof.
  split; [unfold render; destruct (b_ang b); reflexivity|]. unfold render. rewrite !sums_app, !sums_dec, sums_mids. destruct (b_ang b), (Bool.eqb _ _); cbn; lia.
Qed.
Lemma two_sums n t : In t (gen_2 n) -> sums t = 0%nat.
Proof.
  intros H. apply gen_2_only in H as (i & j & _ & _ & [-> | ->]); [change (angle_name i j) with ([10216] ++ dec i ++ [124] ++ dec j ++ [10217])|change (square_name i j) with ([91] ++ dec i ++ [124] ++ dec j ++ [93])];
    rewrite !sums_app, !sums_dec; reflexivity.
Qed.
(* the other families *)
Definition starts_s (t : pystr) : Prop := exists r, t = 115 :: r.
Lemma s_loop_starts n inner : (forall j s, starts_s s -> forall t, In t (inner j s) -> starts_s t) ->
  forall js s, starts_s s -> forall t, In t (s_loop n inner js s) -> starts_s t.
Proof.
  intros HI js. induction js as [|j js IH]; intros s (r & ->) t H; [destruct H|]. cbn [s_loop] in H. destruct (_ && _ && _) in H; [destruct H|]. apply in_app_or in H as [H|H].
  - apply (HI _ _ (ex_intro _ (r ++ dec j) eq_refl) _ H).
  - refine (IH _ _ _ H). rewrite removelast_app by apply dec_some. exists (r ++ removelast (dec j)). reflexivity.
Qed.
Lemma recurse_starts n m : forall i s, starts_s s -> forall t, In t (recurse_s m n i s) -> starts_s t.
Proof.
  induction m as [|m IH]; intros i s Hs t H; [destruct H|]. cbn [recurse_s] in H. revert H. apply s_loop_starts; [|exact Hs].
  intros j s' Hs' t' H. destruct m; [destruct H as [<-|[]]; exact Hs'|]. apply (IH _ _ Hs' _ H).
Qed.
Lemma other_bracketed n t : In t (gen_s n) \/ In t (gen_D n) \/ In t (gen_O n) \/ In t (gen_P n) \/ In t (gen_tr5 n) -> bracketed t = false.
Proof.
  intros [H|[H|[H|[H|H]]]].
  - unfold gen_s in H. apply in_flat_map in H as (m & _ & H). apply recurse_starts in H as (r & ->); [reflexivity|]. eexists. reflexivity.
  - unfold gen_D in H. destruct (n >=? 6); [|destruct H]. unfold generate_D in H. apply in_flat_map in H as (i & _ & H). apply in_flat_map in H as (j & _ & H). cbv zeta in H.
    apply in_map_iff in H as (k & <- & _). reflexivity.
  - apply hd_gen_O in H. destruct t; [reflexivity|]. cbn in H. subst. reflexivity.
  - apply hd_gen_P in H. destruct t; [reflexivity|]. cbn in H. subst. reflexivity.
  - apply hd_tr5 in H. destruct t; [reflexivity|]. cbn in H. subst. reflexivity.
Qed.
Section Lists.
Variables (v : env) (n : Z) (o : options) (i : invs).
Hypothesis ok : from_scratch v n o = Ok i.
Lemma counts : (forall t, In t (invs_2 i) -> sums t = 0%nat) /\ (forall t, In t (invs_3 i) -> bracketed t = true /\ sums t = 1%nat) /\
  (forall t, In t (invs_4 i) -> (bracketed t = true /\ sums t = 2%nat) \/ (n = 7 /\ t = the_gram)) /\ (n = 7 -> exists l, invs_4 i = l ++ [the_gram] /\ forall t, In t l -> bracketed t = true /\ sums t = 2%nat) /\
  (forall t, In t (invs_5 i) -> bracketed t = true /\ sums t = 3%nat).
Proof.
  assert (E := ok). clear ok. unfold from_scratch in E. destruct (gen_N n 3) as [three|] eqn:E3; [|discriminate]. cbn [rbind] in E.
  destruct (gen_4 (e_ord v) n) as [four|] eqn:E4; [|discriminate]. cbn [rbind] in E.
  assert (T3 : forall b, In b three -> length (b_mid b) = 1%nat).
  { intros b H. destruct (gen_3_ok n) as (l & El & _ & W & _). rewrite E3 in El. injection El as ->. apply W in H as (x & S & y & -> & _). reflexivity. }
  assert (T4 : forall b, In b four -> length (b_mid b) = 2%nat).
  { intros b H. destruct (gen_4_good _ _ _ _ E4 H) as (x & y & -> & _). reflexivity. }
  destruct (if o_r4 o then purge4 n (o_f4 o) four else Ok four) as [four'|] eqn:E4'; [|discriminate]. cbn [rbind] in E.
  assert (I4 : incl four' four).
  { unfold purge4 in E4'. destruct (o_r4 o); [destruct (o_f4 o); [|destruct (existsb minimal four); [discriminate|]]|]; injection E4' as <-; intros b H; try (apply filter_In in H as [H _]); exact H. }
  match type of E with rbind ?x _ = _ => destruct x as [added|] eqn:Ea; [|discriminate] end. cbn [rbind] in E. injection E as <-. cbn [invs_2 invs_3 invs_4 invs_5].
  assert (A : forall t, In t added -> In t hard_coded).
  { destruct (_ && _) in Ea; [|injection Ea as <-; intros t []]. revert added Ea. generalize hard_coded. intros hc. induction hc as [|h hc IH]; intros added Ea t H.
    - cbn in Ea. injection Ea as <-. destruct H.
    - cbn [rmapM rmap] in Ea. destruct (e_test v h) as [tb|]; [|discriminate]. cbn [rmap rbind] in Ea.
      destruct (rmapM (fun inv => rmap (fun b : bool => if b then [inv] else []) (e_test v inv)) hc) as [r|]; [|discriminate]. cbn in Ea. injection Ea as <-. cbn [concat] in H. apply in_app_or in H as [H|H].
      + destruct tb; [destruct H as [<-|[]]; left; reflexivity|destruct H].
      + right. apply (IH (concat r) eq_refl t H). }
  assert (R4 : forall t, In t (map render four') -> bracketed t = true /\ sums t = 2%nat).
  { intros t H. apply in_map_iff in H as (b & <- & H). destruct (render_sums b) as [B S]. rewrite S. auto. }
  repeat split.
  - intros t H. exact (two_sums n t H).
  - apply in_app_or in H as [H|H].
    + apply in_map_iff in H as (b & <- & H). apply render_sums.
    + apply A in H. unfold hard_coded in H. apply in_map_iff in H as (b & <- & H). apply render_sums.
  - apply in_app_or in H as [H|H].
    + apply in_map_iff in H as (b & <- & H). destruct (render_sums b) as [_ S]. rewrite S. apply T3. destruct (o_r3 o); [apply filter_In in H as [H _]|]; exact H.
    + apply A in H. unfold hard_coded in H. apply in_map_iff in H as (b & <- & H). destruct (render_sums b) as [_ S]. rewrite S. cbn [In] in H. repeat (destruct H as [<-|H]; [reflexivity|]). destruct H.
  - intros t H. apply in_app_or in H as [H|H]; [left; auto|]. destruct (Z.eqb_spec n 7); [|destruct H]. destruct H as [<-|[<-|[<-|[]]]]; [left; split; reflexivity|left; split; reflexivity|right; split; [assumption|reflexivity]].
  - intros ->. change (7 =? 7) with true. cbv iota. exists (map render four' ++ [render (Brk true 1 [[5; 6]; [2; 7]] 1); render (Brk false 1 [[5; 6]; [2; 7]] 1)]). split; [rewrite <- app_assoc; reflexivity|].
    intros t H. apply in_app_or in H as [H|H]; [auto|]. destruct H as [<-|[<-|[]]]; split; reflexivity.
  - apply in_map_iff in H as (b & <- & H). apply render_sums.
  - apply in_map_iff in H as (b & <- & H). destruct (render_sums b) as [_ S]. rewrite S. unfold gen_5 in H. destruct (n >=? 7); [|destruct H]. unfold generate_5 in H.
    apply in_flat_map in H as (k0 & _ & H). cbv zeta in H. apply in_flat_map in H as (kk & _ & H). apply in_flat_map in H as (j & _ & H).
    destruct (negb _) in H; [destruct H|]. apply in_flat_map in H as (k & _ & H). destruct (negb _) in H; [destruct H|]. destruct (negb _) in H; [destruct H|]. destruct H as [<-|[]]. reflexivity.
Qed.
Lemma rest_bracketed t : In t (invs_s i ++ invs_D i ++ invs_O i ++ invs_P i ++ invs_tr5 i) -> bracketed t = false.
Proof.
  destruct (from_scratch_fields v n o i ok) as (_ & -> & -> & -> & -> & -> & _). rewrite !in_app_iff.
  intros [H|[[H|H]|[H|[H|H]]]]; try (apply (other_bracketed n); tauto). destruct (n =? 6); [|destruct H]. destruct H as [<-|[<-|[<-|[]]]]; reflexivity.
Qed.
Lemma filter_all {A} (f : A -> bool) l : (forall x, In x l -> f x = true) -> filter f l = l.
Proof. induction l as [|a l IH]; intros H; [reflexivity|]. cbn. rewrite (H a (or_introl eq_refl)), IH; [reflexivity|]. intros x Hx. apply H. right. exact Hx. Qed.
Lemma filter_none {A} (f : A -> bool) l : (forall x, In x l -> f x = false) -> filter f l = [].
Proof. induction l as [|a l IH]; intros H; [reflexivity|]. cbn. rewrite (H a (or_introl eq_refl)). apply IH. intros x Hx. apply H. right. exact Hx. Qed.
Lemma minus_list : n <> 7 -> full_minus_4_brackets i = filter (fun t => negb (four_bracket t)) (full i).
Proof.
  intros N. destruct counts as (C2 & C3 & C4 & _ & C5). unfold full, full_minus_4_brackets. rewrite filter_app, filter_app, filter_app, filter_app.
  rewrite (filter_none _ (invs_4 i)).
  2: { intros t H. apply C4 in H as [[B S]|[H _]]; [|contradiction]. unfold four_bracket. rewrite B, S. reflexivity. }
  rewrite (filter_all _ (invs_2 i)) by (intros t H; apply C2 in H; unfold four_bracket; rewrite H, andb_false_r; reflexivity).
  rewrite (filter_all _ (invs_3 i)) by (intros t H; apply C3 in H as [B S]; unfold four_bracket; rewrite S, andb_false_r; reflexivity).
  rewrite (filter_all _ (invs_5 i)) by (intros t H; apply C5 in H as [B S]; unfold four_bracket; rewrite S, andb_false_r; reflexivity).
  rewrite (filter_all _ (invs_s i ++ _)) by (intros t H; apply rest_bracketed in H; unfold four_bracket; rewrite H; reflexivity). reflexivity.
Qed.
Lemma N_list : n <> 7 -> invs_N i = filter long_bracket (full i).
Proof.
  intros N. destruct counts as (C2 & C3 & C4 & _ & C5). unfold full, invs_N. rewrite filter_app, filter_app, filter_app, filter_app.
  rewrite (filter_none _ (invs_2 i)) by (intros t H; apply C2 in H; unfold long_bracket; rewrite H, andb_false_r; reflexivity).
  rewrite (filter_all _ (invs_3 i)) by (intros t H; apply C3 in H as [B S]; unfold long_bracket; rewrite B, S; reflexivity).
  rewrite (filter_all _ (invs_4 i)).
  2: { intros t H. apply C4 in H as [[B S]|[H _]]; [|contradiction]. unfold long_bracket. rewrite B, S. reflexivity. }
  rewrite (filter_all _ (invs_5 i)) by (intros t H; apply C5 in H as [B S]; unfold long_bracket; rewrite B, S; reflexivity).
  rewrite (filter_none _ (invs_s i ++ _)) by (intros t H; apply rest_bracketed in H; unfold long_bracket; rewrite H; reflexivity). rewrite app_nil_r. reflexivity.
Qed.
Lemma gram_not_s t : In t (gen_s n) -> t <> the_gram.
Proof. intros H ->. unfold gen_s in H. apply in_flat_map in H as (m & _ & H). apply recurse_starts in H as (r & E); [discriminate|]. eexists. reflexivity. Qed.
(* seven legs: one Gram determinant is in the list of four brackets *)
Lemma lists_seven : n = 7 -> In the_gram (full i) /\ In the_gram (invs_N i) /\ ~ In the_gram (full_minus_4_brackets i) /\
  Permutation.Permutation (the_gram :: full_minus_4_brackets i) (filter (fun t => negb (four_bracket t)) (full i)) /\
  Permutation.Permutation (invs_N i) (the_gram :: filter long_bracket (full i)).
Proof.
  intros N7. destruct counts as (C2 & C3 & C4 & C7 & C5). destruct (C7 N7) as (l & E4 & L). clear C4 C7.
  assert (G4 : four_bracket the_gram = false) by reflexivity. assert (GN : long_bracket the_gram = false) by reflexivity.
  assert (GB : bracketed the_gram = false) by reflexivity.
  split; [|split; [|split; [|split]]].
  - unfold full. rewrite E4, !in_app_iff. cbn [In]. tauto.
  - unfold invs_N. rewrite E4, !in_app_iff. cbn [In]. tauto.
  - unfold full_minus_4_brackets. destruct (from_scratch_fields v n o i ok) as (E2 & Es & EO & EP & Et & ED & _). rewrite !in_app_iff. intros [H|[H|[H|[H|[H|[H|[H|H]]]]]]].
    + rewrite E2 in H. apply gen_2_only in H as (a & b & _ & _ & [H|H]); discriminate.
    + apply C3 in H as [H _]. congruence.
    + apply C5 in H as [H _]. congruence.
    + rewrite Es in H. apply gram_not_s in H. congruence.
    + rewrite ED, N7 in H. change (7 =? 6) with false in H. rewrite app_nil_r in H. revert H. 
      assert (X : existsb (str_eqb the_gram) (gen_D 7) = false) by (vm_compute; reflexivity). intros H.
      assert (Y : existsb (str_eqb the_gram) (gen_D 7) = true) by (apply existsb_exists; exists the_gram; split; [exact H|reflexivity]). congruence.
    + rewrite EO in H. apply hd_gen_O in H. discriminate.
    + rewrite EP in H. apply hd_gen_P in H. discriminate.
    + rewrite Et in H. apply hd_tr5 in H. discriminate.
  - unfold full, full_minus_4_brackets. rewrite E4, (filter_app _ (invs_2 i)), (filter_app _ (invs_3 i)), (filter_app _ (l ++ _)), (filter_app _ (invs_5 i)), (filter_app _ l).
    rewrite (filter_none _ l).
    2: { intros t H. apply L in H as [B S]. unfold four_bracket. rewrite B, S. reflexivity. }
    rewrite (filter_all _ (invs_2 i)) by (intros t H; apply C2 in H; unfold four_bracket; rewrite H, andb_false_r; reflexivity).
    rewrite (filter_all _ (invs_3 i)) by (intros t H; apply C3 in H as [B S]; unfold four_bracket; rewrite S, andb_false_r; reflexivity).
    rewrite (filter_all _ (invs_5 i)) by (intros t H; apply C5 in H as [B S]; unfold four_bracket; rewrite S, andb_false_r; reflexivity).
    rewrite (filter_all _ (invs_s i ++ _)) by (intros t H; apply rest_bracketed in H; unfold four_bracket; rewrite H; reflexivity).
    cbn [filter]. rewrite G4. cbn [negb app]. rewrite !(app_assoc (invs_2 i) (invs_3 i)). apply Permutation.Permutation_middle.
  - unfold full, invs_N. rewrite E4, (filter_app _ (invs_2 i)), (filter_app _ (invs_3 i)), (filter_app _ (l ++ _)), (filter_app _ (invs_5 i)), (filter_app _ l).
    rewrite (filter_none _ (invs_2 i)) by (intros t H; apply C2 in H; unfold long_bracket; rewrite H, andb_false_r; reflexivity).
    rewrite (filter_all _ (invs_3 i)) by (intros t H; apply C3 in H as [B S]; unfold long_bracket; rewrite B, S; reflexivity).
    rewrite (filter_all _ l).
    2: { intros t H. apply L in H as [B S]. unfold long_bracket. rewrite B, S. reflexivity. }
    rewrite (filter_all _ (invs_5 i)) by (intros t H; apply C5 in H as [B S]; unfold long_bracket; rewrite B, S; reflexivity).
    rewrite (filter_none _ (invs_s i ++ _)) by (intros t H; apply rest_bracketed in H; unfold long_bracket; rewrite H; reflexivity).
    cbn [filter]. rewrite GN. cbn [app]. rewrite !app_nil_r, <- (app_assoc l). cbn [app]. rewrite !(app_assoc (invs_3 i) l). symmetry. apply Permutation.Permutation_middle.
Qed.
End Lists.
