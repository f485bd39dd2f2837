(* The families of invariants do not overlap: what is once in its family is once in the full list. *)
From Coq Require Import Ascii String.
From Coq Require Import List ZArith Bool Lia Sorted.
From Verif Require Import Base Str Gen GenSpec GenThm GenThm2.
Import ListNotations.
Open Scope Z_scope.

(* first character, is there a parenthesis, is there a bar: which family a string is of *)
Definition kind (t : pystr) : Z * bool * bool := (hd 0 t, memz 40 t, memz BAR t).
Definition bracket (x : Z) : Prop := x = LANG \/ x = LSQ.
Lemma memz_app x a b : memz x (a ++ b) = memz x a || memz x b.
Proof. unfold memz. apply existsb_app. Qed.
Lemma memz_dec x i : x < 48 \/ 57 < x -> 0 <= i -> memz x (dec i) = false.
Proof.
  intros H Hi. destruct (memz x (dec i)) eqn:E; [|reflexivity]. exfalso. apply memz_In in E. assert (D := dec_digits i Hi). rewrite Forall_forall in D. apply D in E. lia.
Qed.
Lemma kind_two i j : 0 <= i -> 0 <= j -> kind (angle_name i j) = (LANG, false, true) /\ kind (square_name i j) = (LSQ, false, true).
Proof.
  intros Hi Hj. unfold kind, angle_name, square_name, memz. cbn [hd existsb]. rewrite !existsb_app. cbn [existsb]. rewrite !existsb_app. fold (memz 40 (dec i)) (memz 40 (dec j)).
  rewrite !memz_dec by lia. cbn. rewrite !orb_true_r. auto.
Qed.
Lemma kind_render b : b_mid b <> [] -> kind (render b) = (if b_ang b then LANG else LSQ, true, true).
Proof.
  intros H. unfold render, kind. rewrite !memz_app. destruct (b_mid b) as [|m ms]; [contradiction|]. clear H.
  assert (M : memz 40 (joinp [BAR] (map render_mid (m :: ms))) = true).
  { cbn [map joinp]. unfold render_mid at 1. destruct ms; [reflexivity|]. cbn [map]. unfold render_mid at 1. reflexivity. }
  rewrite M. replace (memz BAR [BAR]) with true by reflexivity. rewrite !orb_true_r, ?orb_true_l, ?orb_true_r. destruct (b_ang b); reflexivity.
Qed.
Lemma kind_s n t : n <= 9 -> In t (gen_s n) -> hd 0 t = 115.
Proof. intros N H. apply gen_s_only in H as (I & _ & _ & ->); [|exact N]. reflexivity. Qed.
Lemma kind_delta a b c : 0 <= a -> 0 <= b -> 0 <= c -> kind (delta_name a b c) = (DELTA, false, false).
Proof.
  intros A B C. unfold kind, delta_name, memz. cbn [hd existsb]. rewrite !existsb_app. fold (memz 40 (dec a)) (memz 40 (dec b)) (memz 40 (dec c)) (memz BAR (dec a)) (memz BAR (dec b)) (memz BAR (dec c)).
  rewrite !memz_dec by (unfold BAR; lia). reflexivity.
Qed.
Lemma hd_O n t : In t (generate_O n) -> hd 0 t = OMEGA.
Proof. unfold generate_O. intros H. apply in_flat_map in H as (d & _ & H). cbv zeta in H. destruct H as [<-|[<-|[<-|[]]]]; reflexivity. Qed.
Lemma hd_gen_O n t : In t (gen_O n) -> hd 0 t = OMEGA.
Proof. unfold gen_O. destruct (n =? 6); [apply hd_O|intros []]. Qed.
Lemma hd_gen_P n t : In t (gen_P n) -> hd 0 t = PI.
Proof.
  unfold gen_P. destruct (n =? 6); [|intros []]. intros H. apply in_map_iff in H as (u & <- & H). apply hd_O in H. destruct u as [|x u]; cbn in H |- *; [discriminate|]. rewrite H. reflexivity.
Qed.
Lemma hd_tr5 n t : In t (gen_tr5 n) -> hd 0 t = 116.
Proof. unfold gen_tr5. destruct (n >=? 5); [|intros []]. intros H. apply in_map_iff in H as (u & <- & _). reflexivity. Qed.

(* what from_scratch puts where *)
Lemma from_scratch_fields v n o i : from_scratch v n o = Ok i ->
  invs_2 i = gen_2 n /\ invs_s i = gen_s n /\ invs_O i = gen_O n /\ invs_P i = gen_P n /\ invs_tr5 i = gen_tr5 n /\
  invs_D i = gen_D n ++ (if n =? 6 then [delta_lit "15|26|34"; delta_lit "14|23|56"; delta_lit "13|24|56"] else []) /\
  (forall t, In t (invs_3 i) -> kind t = (LANG, true, true) \/ kind t = (LSQ, true, true)) /\
  (forall t, In t (invs_4 i) -> kind t = (LANG, true, true) \/ kind t = (LSQ, true, true) \/ kind t = (DELTA, false, true)) /\
  (forall t, In t (invs_5 i) -> kind t = (LANG, true, true) \/ kind t = (LSQ, true, true)).
Proof.
  unfold from_scratch. intros E. destruct (gen_N n 3) as [three|] eqn:E3; [|discriminate]. cbn [rbind] in E.
  destruct (gen_4 (e_ord v) n) as [four|] eqn:E4; [|discriminate]. cbn [rbind] in E.
  assert (K : forall b, b_mid b <> [] -> kind (render b) = (LANG, true, true) \/ kind (render b) = (LSQ, true, true)).
  { intros b H. rewrite (kind_render b H). destruct (b_ang b); auto. }
  assert (T3 : forall b, In b three -> b_mid b <> []).
  { intros b H. destruct (gen_3_ok n) as (l & El & _ & W & _). rewrite E3 in El. injection El as ->. apply W in H as (x & S & y & -> & _). discriminate. }
  assert (T4 : forall b, In b four -> b_mid b <> []).
  { intros b H. destruct (gen_4_good _ _ _ _ E4 H) as (x & y & -> & _). discriminate. }
  destruct (if o_r4 o then purge4 n (o_f4 o) four else Ok four) as [four'|] eqn:E4'; [|discriminate]. cbn [rbind] in E.
  assert (I4 : incl four' four).
  { unfold purge4 in E4'. destruct (o_r4 o); [destruct (o_f4 o); [|destruct (existsb minimal four); [discriminate|]]|]; injection E4' as <-; intros b H; try (apply filter_In in H as [H _]); exact H. }
  match type of E with rbind ?x _ = _ => destruct x as [added|] eqn:Ea; [|discriminate] end. cbn [rbind] in E. injection E as <-. cbn [invs_2 invs_3 invs_4 invs_5 invs_s invs_D invs_O invs_P invs_tr5].
  assert (A : forall t, In t added -> In t hard_coded).
  { destruct (_ && _) in Ea; [|injection Ea as <-; intros t []]. revert added Ea. generalize hard_coded. intros hc. induction hc as [|h hc IH]; intros added Ea t H.
    - cbn in Ea. injection Ea as <-. destruct H.
    - cbn [rmapM rmap] in Ea. destruct (e_test v h) as [tb|]; [|discriminate]. cbn [rmap rbind] in Ea.
      destruct (rmapM (fun inv => rmap (fun b : bool => if b then [inv] else []) (e_test v inv)) hc) as [r|]; [|discriminate]. cbn in Ea. injection Ea as <-. cbn [concat] in H. apply in_app_or in H as [H|H].
      + destruct tb; [destruct H as [<-|[]]; left; reflexivity|destruct H].
      + right. apply (IH (concat r) eq_refl t H). }
  repeat split.
  - intros t H. apply in_app_or in H as [H|H].
    + apply in_map_iff in H as (b & <- & H). apply K, T3. destruct (o_r3 o); [apply filter_In in H as [H _]|]; exact H.
    + apply A in H. unfold hard_coded in H. apply in_map_iff in H as (b & <- & H). apply K. intros E. cbn [In] in H. repeat (destruct H as [<-|H]; [discriminate E|]). destruct H.
  - intros t H. apply in_app_or in H as [H|H].
    + apply in_map_iff in H as (b & <- & H). apply I4, T4, K in H. tauto.
    + destruct (n =? 7); [|destruct H]. destruct H as [<-|[<-|[<-|[]]]]; [left|right; left|right; right]; reflexivity.
  - intros t H. apply in_map_iff in H as (b & <- & H). apply K. unfold gen_5 in H. destruct (n >=? 7); [|destruct H]. unfold generate_5 in H.
    apply in_flat_map in H as (i & _ & H). cbv zeta in H. apply in_flat_map in H as (kk & _ & H). apply in_flat_map in H as (j & _ & H).
    destruct (negb _) in H; [destruct H|]. apply in_flat_map in H as (k & _ & H). destruct (negb _) in H; [destruct H|]. destruct (negb _) in H; [destruct H|]. destruct H as [<-|[]]. discriminate.
Qed.
Lemma occ_app t a b : occurrences t (a ++ b) = (occurrences t a + occurrences t b)%nat.
Proof. apply count_occ_app. Qed.
Section Full.
Variables (v : env) (n : Z) (o : options) (i : invs).
Hypothesis n9 : n <= 9.
Hypothesis ok : from_scratch v n o = Ok i.
Let none (t : pystr) (l : list pystr) : Prop := occurrences t l = 0%nat.
Lemma other_families t :
  (kind t <> (LANG, false, true) /\ kind t <> (LSQ, false, true) -> none t (invs_2 i)) /\
  (kind t <> (LANG, true, true) /\ kind t <> (LSQ, true, true) -> none t (invs_3 i) /\ none t (invs_5 i) /\ (kind t <> (DELTA, false, true) -> none t (invs_4 i))) /\
  (hd 0 t <> 115 -> none t (invs_s i)) /\ (hd 0 t <> OMEGA -> none t (invs_O i)) /\ (hd 0 t <> PI -> none t (invs_P i)) /\ (hd 0 t <> 116 -> none t (invs_tr5 i)) /\
  (hd 0 t <> DELTA -> none t (invs_D i)) /\ (kind t <> (DELTA, false, true) -> occurrences t (invs_D i) = occurrences t (gen_D n)).
Proof.
  destruct (from_scratch_fields v n o i ok) as (-> & -> & -> & -> & -> & -> & H3 & H4 & H5). unfold none.
  assert (X : forall x : Z * bool * bool, kind t = x -> kind t = x) by auto.
  repeat split; intros.
  - apply occ_zero. intros I. apply gen_2_only in I as (a & b & A & B & [E|E]); destruct (kind_two a b ltac:(lia) ltac:(lia)) as [P Q]; rewrite <- E in *; tauto.
  - apply occ_zero. intros I. apply H3 in I. tauto.
  - apply occ_zero. intros I. apply H5 in I. tauto.
  - apply occ_zero. intros I. apply H4 in I. tauto.
  - apply occ_zero. intros I. apply kind_s in I; auto.
  - apply occ_zero. intros I. apply hd_gen_O in I; auto.
  - apply occ_zero. intros I. apply hd_gen_P in I; auto.
  - apply occ_zero. intros I. apply hd_tr5 in I; auto.
  - apply occ_zero. intros I. apply in_app_or in I as [I|I].
    + apply gen_D_only in I as (a & b & c & _ & [->| ->]); apply H; reflexivity.
    + destruct (n =? 6); [|destruct I]. destruct I as [<-|[<-|[<-|[]]]]; apply H; reflexivity.
  - rewrite occ_app. replace (occurrences t (if n =? 6 then _ else _)) with 0%nat; [lia|]. symmetry. apply occ_zero. intros I. destruct (n =? 6); [|destruct I].
    destruct I as [<-|[<-|[<-|[]]]]; apply H; reflexivity.
Qed.
Lemma full_two t : kind t = (LANG, false, true) \/ kind t = (LSQ, false, true) -> occurrences t (full i) = occurrences t (gen_2 n).
Proof.
  intros K. destruct (other_families t) as (_ & A & B & C & D & E & F & _). unfold none in *. destruct (from_scratch_fields v n o i ok) as (<- & _).
  assert (H : hd 0 t = LANG \/ hd 0 t = LSQ) by (destruct K as [K|K]; injection K; auto).
  unfold full. rewrite !occ_app. destruct A as (A1 & A2 & A3); [destruct K as [-> | ->]; split; discriminate|].
  rewrite A1, A2, A3, B, C, D, E, F; try lia; try (destruct K as [-> | ->]; discriminate); destruct H as [-> | ->]; discriminate.
Qed.
Lemma full_s t : hd 0 t = 115 -> occurrences t (full i) = occurrences t (gen_s n).
Proof.
  intros H. destruct (from_scratch_fields v n o i ok) as (_ & <- & _).
  assert (K : forall h a b, h <> 115 -> kind t <> (h, a, b)) by (intros h a b N E; injection E; intros; congruence).
  destruct (other_families t) as (A0 & A & B & C & D & E & F & _). unfold none in *. destruct A as (A1 & A2 & A3); [split; apply K; discriminate|].
  unfold full. rewrite !occ_app, A0, A1, A2, A3, C, D, E, F; try lia; try split; try apply K; try (rewrite H); discriminate.
Qed.
Lemma full_tr5 t : hd 0 t = 116 -> occurrences t (full i) = occurrences t (gen_tr5 n).
Proof.
  intros H. destruct (from_scratch_fields v n o i ok) as (_ & _ & _ & _ & <- & _).
  assert (K : forall h a b, h <> 116 -> kind t <> (h, a, b)) by (intros h a b N E; injection E; intros; congruence).
  destruct (other_families t) as (A0 & A & B & C & D & E & F & _). unfold none in *. destruct A as (A1 & A2 & A3); [split; apply K; discriminate|].
  unfold full. rewrite !occ_app, A0, A1, A2, A3, B, C, D, F; try lia; try split; try apply K; try (rewrite H); discriminate.
Qed.
Lemma full_D t : kind t = (DELTA, false, false) -> occurrences t (full i) = occurrences t (gen_D n).
Proof.
  intros K. assert (H : hd 0 t = DELTA) by (injection K; auto).
  destruct (other_families t) as (A0 & A & B & C & D & E & _ & G). unfold none in *. destruct A as (A1 & A2 & A3); [rewrite K; split; discriminate|].
  unfold full. rewrite !occ_app, A0, A1, A2, A3, B, C, D, E, G; try rewrite K; try rewrite H; try lia; try split; discriminate.
Qed.
End Full.
