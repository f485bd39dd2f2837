(* Proofs about the textual replacements of _parse. *)
From Coq Require Import Ascii String.
From Coq Require Import List ZArith Bool Lia.
From Verif Require Import Base Str Symm Regex RegexThm Parse ParseSpec MassesThm GenThm.
From Verif Require Export ParseChars.
Import ListNotations.
Open Scope Z_scope.

(* ---- the positions in an invariant ---- *)
Definition quietc (c : Z) : Prop := inv_char c /\ c <> 10216 /\ c <> 91 /\ c <> 124.
Lemma held_slot m x b : slot_ok m -> In x [40; 91; 10216; 43; 124; 45] -> held (rev (slot_text m) ++ x :: b).
Proof.
  destruct m as [p i l]. cbn [slot_ok slot_text]. intros (A & B & C) I. destruct (one_digit i A) as (d & -> & D).
  destruct l as [|y l _] using rev_ind.
  - destruct p; [exfalso; apply C; reflexivity|]. cbn. apply held_one; assumption.
  - clear C. apply Forall_app in B. destruct B as [_ B]. apply Forall_inv in B. destruct y as [s k]. cbn [snd] in B. destruct (one_digit k B) as (e & E & De).
    rewrite map_app, concat_app. cbn [map concat]. unfold signed at 2. cbn [fst snd]. rewrite E.
    destruct p; rewrite !rev_app_distr; cbn [rev app]; rewrite <- ?app_assoc; cbn [app].
    + apply held_par; [exact De|destruct s; cbn; tauto].
    + rewrite <- ?app_assoc. cbn [app]. apply held_one; [exact De|destruct s; cbn; tauto].
Qed.
Lemma slot_mid m : slot_ok m -> Forall mid (slot_text m).
Proof. intros K. apply Forall_forall. intros c I. apply slot_chars in I; [|exact K]. unfold mid. cbn in I |- *. tauto. Qed.
Lemma slots_mid ms : Forall slot_ok ms -> Forall mid (slots ms).
Proof. intros K. apply Forall_forall. intros c I. apply slots_chars in I; [|exact K]. unfold mid. cbn in I |- *. tauto. Qed.
Lemma numeric_mid u : numeric u -> Forall mid u.
Proof. intros H. eapply Forall_impl; [|exact H]. intros c D. left. apply is_digit_iff, D. Qed.
Lemma runs_app u s r : Forall mid u -> runs s r -> runs (u ++ s) r.
Proof.
  intros F (x & X & C). exists (u ++ x). split; [apply Forall_app; auto|]. destruct C as [->|(k & K & ->)]; [left|right; exists k; split; [exact K|]]; apply app_assoc.
Qed.
Definition stop_list : list Z := [124; 43; 45; 40; 41].
Lemma slot_next m s k v : slot_ok m -> s = k :: v -> In k stop_list -> exists u k' v', slot_text m ++ s = u ++ k' :: v' /\ numeric u /\ In k' stop_list.
Proof.
  destruct m as [p i l]. cbn [slot_ok slot_text]. intros (A & B & C) -> I. unfold label in A. destruct p.
  - exists [], 40, (dec i ++ concat (map signed l) ++ [41] ++ k :: v). split; [cbn [app]; rewrite <- !app_assoc; reflexivity|]. split; [constructor|cbn; tauto].
  - destruct l as [|[s j] l].
    + exists (dec i), k, v. split; [cbn [app map concat]; rewrite !app_nil_r; reflexivity|]. split; [apply dec_numeric; lia|exact I].
    + cbn [map concat]. unfold signed at 1. cbn [fst snd app]. exists (dec i). eexists; eexists. split; [rewrite <- app_assoc; cbn [app]; reflexivity|]. split; [apply dec_numeric; lia|]. destruct s; cbn; tauto.
Qed.
Lemma slots_head ms k v : In k stop_list -> exists k' v', slots ms ++ k :: v = k' :: v' /\ In k' stop_list.
Proof. intros I. destruct ms as [|m ms]; [exists k, v; auto|]. unfold slots. cbn [map concat]. unfold barred. cbn [app]. eexists; eexists. split; [reflexivity|cbn; tauto]. Qed.
Section Positions.
Variable P : pystr -> Z -> pystr -> Prop.
Variable r : pystr.
Variable D : Prop.
Hypothesis Hbar : forall b s, bar_at D b s r -> P b 124 s.
Hypothesis Hq : forall b c s, quietc c -> P b c s.
Lemma q_digits u : numeric u -> forall b s, each P b u s.
Proof. intros N b s. apply each_all. intros b' c s' I. eapply numeric_in in I; [|exact N]. apply Hq. unfold quietc, inv_char. lia. Qed.
Lemma q_slot m : slot_ok m -> forall b s, each P b (slot_text m) s.
Proof. intros K b s. apply each_all. intros b' c s' I. apply slot_chars in I; [|exact K]. apply Hq. unfold quietc, inv_char. cbn in I |- *. lia. Qed.
Lemma q_slots k tl : In k stop_list -> runs (k :: tl ++ r) r -> forall ms b, Forall slot_ok ms -> held b -> each P b (slots ms) (k :: tl ++ r) /\ held (rev (slots ms) ++ b).
Proof.
  intros I R. induction ms as [|m ms IH]; intros b F H; [split; [exact Logic.I|exact H]|]. inversion F as [|? ? Km F']; subst.
  change (slots (m :: ms)) with (124 :: slot_text m ++ slots ms). destruct (IH (rev (slot_text m) ++ 124 :: b) F') as [E1 E2]; [apply held_slot; [exact Km|cbn; tauto]|]. split.
  - cbn [each]. split.
    + rewrite <- app_assoc. apply Hbar. split; [left; exact H|]. split.
      * apply runs_app; [apply slot_mid, Km|]. apply runs_app; [apply slots_mid, F'|]. exact R.
      * destruct (slots_head ms k (tl ++ r) I) as (k' & v' & E & I'). destruct (slot_next m _ k' v' Km E I') as (u & k2 & v2 & E2' & N & I2). exists u, (k2 :: v2). split; [exact E2'|]. split; [exact N|]. right. exists k2, v2. split; [reflexivity|]. cbn in I2 |- *. tauto.
    + apply each_app. split; [apply q_slot, Km|exact E1].
  - cbn [rev]. rewrite rev_app_distr, <- !app_assoc. cbn [app]. exact E2.
Qed.
Lemma q_last b j k : 0 <= j -> ket k -> each P b (124 :: dec j ++ [k]) r.
Proof.
  intros J K. cbn [each]. split.
  - rewrite <- app_assoc. cbn [app]. assert (N := dec_numeric j J). apply Hbar. split; [right; exists (dec j), k; auto|]. split.
    + exists (dec j). split; [apply numeric_mid, N|]. right. exists k. auto.
    + exists (dec j), (k :: r). split; [reflexivity|]. split; [exact N|]. right. exists k, r. split; [reflexivity|]. destruct K as [-> | ->]; cbn; tauto.
  - apply each_app. split; [apply q_digits, dec_numeric, J|]. cbn [each]. split; [|exact I]. apply Hq. unfold quietc, inv_char. destruct K as [-> | ->]; cbn; repeat split; try tauto; discriminate.
Qed.
Lemma q_blocks (HD : D) : forall ns b, Forall (fun k => 0 <= k <= 9999) ns -> held b -> each P b (concat (map (fun k => barred (dec k)) ns)) r.
Proof.
  induction ns as [|k ns IH]; intros b F H; [exact I|]. inversion F as [|? ? K F']; subst. cbn [map concat]. unfold barred at 1. cbn [app each]. split.
  - rewrite <- app_assoc. apply Hbar. assert (N := dec_numeric k ltac:(lia)). split; [left; exact H|]. split.
    + exists (dec k ++ concat (map (fun k => barred (dec k)) ns)). split.
      * apply Forall_app. split; [apply numeric_mid, N|]. apply Forall_forall. intros c I. apply blocks_chars in I; [|exact F']. destruct I as [I| ->]; [left; exact I|right; cbn; tauto].
      * left. apply app_assoc.
    + exists (dec k), (concat (map (fun k => barred (dec k)) ns) ++ r). split; [reflexivity|]. split; [exact N|]. destruct ns as [|k' ns]; [left; split; [reflexivity|exact HD]|right]. cbn [map concat]. unfold barred at 1. cbn [app]. eexists; eexists; split; [reflexivity|cbn; tauto].
  - apply each_app. split; [apply q_digits, dec_numeric; lia|]. apply IH; [exact F'|]. apply held_num; [apply Forall_rev, dec_numeric; lia|rewrite rev_length; apply few_digits; exact K|right; reflexivity].
Qed.
Lemma q_chars u : Forall quietc u -> forall b s, each P b u s.
Proof. intros F b s. apply each_all. intros b' c s' I. apply Hq. exact (proj1 (Forall_forall _ _) F c I). Qed.
Lemma each_inv a b : inv_ok a -> (digit_end a = true -> D) -> (forall c s, c = 10216 \/ c = 91 -> inv_text a ++ r = c :: s -> P b c s) -> each P b (inv_text a) r.
Proof.
  intros K HD Hhd.
  assert (QC : forall c, In c [40; 41; 115; 95; 116; 114; 937; 928; 916; 53] -> quietc c) by (intros c I; unfold quietc, inv_char; cbn in I |- *; lia).
  assert (R41 : runs (41 :: [] ++ r) r) by (exists [41]; split; [constructor; [right; cbn; tauto|constructor]|left; reflexivity]).
  destruct a as [i j|i j|n|l i m ms j k|m ms|m ms|n|n|n|n m ns]; cbn [inv_ok] in K; cbn [inv_text].
  - cbn [each]. split; [apply Hhd; [left; reflexivity|reflexivity]|]. apply each_app. split; [apply q_digits, dec_numeric; tauto|]. apply q_last; [tauto|left; reflexivity].
  - cbn [each]. split; [apply Hhd; [right; reflexivity|reflexivity]|]. apply each_app. split; [apply q_digits, dec_numeric; tauto|]. apply q_last; [tauto|right; reflexivity].
  - apply each_app. split; [apply q_chars; apply Forall_forall; intros c0 I0; apply QC; inl I0; cbn; tauto|apply q_digits, dec_numeric, K].
  - destruct K as (A & B & C). cbn [each]. split; [apply Hhd; [destruct l; auto|reflexivity]|]. destruct (one_digit i A) as (d & E & Dd). rewrite E. cbn [app each]. split; [apply Hq; apply is_digit_iff in Dd; unfold quietc, inv_char; lia|].
    assert (Kk : ket (if k then 10217 else 93)) by (destruct k; [left|right]; reflexivity).
    destruct (q_slots 124 (dec j ++ [if k then 10217 else 93])) with (ms := m :: ms) (b := d :: (if l then 10216 else 91) :: b) as [E1 E2].
    + cbn; tauto.
    + rewrite <- app_assoc. cbn [app]. exists (124 :: dec j). split; [constructor; [right; cbn; tauto|apply numeric_mid, dec_numeric, C]|]. right. eexists. split; [exact Kk|reflexivity].
    + exact B.
    + apply held_one; [exact Dd|destruct l; cbn; tauto].
    + apply each_app. split; [exact E1|]. apply q_last; assumption.
  - destruct K as (A & B). inversion A; subst. inversion B; subst. apply each_app. split; [apply q_chars; apply Forall_forall; intros c0 I0; apply QC; inl I0; cbn; tauto|]. apply each_app. split; [apply q_slot; assumption|].
    destruct (q_slots 41 [] ltac:(cbn; tauto) R41 ms (rev (slot_text m) ++ rev (lit "tr(") ++ b)) as [E1 E2]; [assumption|apply held_slot; [assumption|cbn; tauto]|].
    apply each_app. split; [exact E1|]. cbn [each]. split; [apply Hq, QC; cbn; tauto|exact I].
  - destruct K as (A & B). inversion A; subst. inversion B; subst. apply each_app. split; [apply q_chars; apply Forall_forall; intros c0 I0; apply QC; inl I0; cbn; tauto|]. apply each_app. split; [apply q_slot; assumption|].
    destruct (q_slots 41 [] ltac:(cbn; tauto) R41 ms (rev (slot_text m) ++ rev (lit "tr5(") ++ b)) as [E1 E2]; [assumption|apply held_slot; [assumption|cbn; tauto]|].
    apply each_app. split; [exact E1|]. cbn [each]. split; [apply Hq, QC; cbn; tauto|exact I].
  - apply each_app. split; [apply q_chars; apply Forall_forall; intros c0 I0; apply QC; inl I0; cbn; tauto|apply q_digits, dec_numeric, K].
  - cbn [each]. split; [apply Hq, QC; cbn; tauto|]. split; [apply Hq, QC; cbn; tauto|]. apply q_digits, dec_numeric, K.
  - cbn [each]. split; [apply Hq, QC; cbn; tauto|]. split; [apply Hq, QC; cbn; tauto|]. apply q_digits, dec_numeric, K.
  - cbn [each]. split; [apply Hq, QC; cbn; tauto|]. split; [apply Hq, QC; cbn; tauto|]. inversion K as [|? ? Kn K']; subst. apply each_app. split; [apply q_digits, dec_numeric; lia|].
    apply q_blocks; [apply HD; reflexivity|exact K'|]. apply held_num; [apply Forall_rev, dec_numeric; lia|rewrite rev_length; apply few_digits; exact Kn|left; reflexivity].
Qed.
End Positions.
Lemma each_tok (P : pystr -> Z -> pystr -> Prop) p w t b r : tok_ok t -> (forall b c s, ~ In c [10216; 91; 124; 60; 62] -> P b c s) ->
  (forall a, t = TInv a -> (rank a <=? w)%nat = false -> each P b (inv_text a) r) ->
  (forall a b0, t = TInv a -> (rank a <=? w)%nat = true -> each P (39 :: 40 :: b0) (inv_text a) (39 :: 41 :: r)) ->
  each P b (st p w t) r.
Proof.
  intros K Hc H1 H2.
  assert (Q : forall u s b, Forall (fun c => ~ In c [10216; 91; 124; 60; 62]) u -> each P b u s).
  { intros u s b1 F. apply each_all. intros b' c s' I. apply Hc. exact (proj1 (Forall_forall _ _) F c I). }
  assert (N : forall u, (forall c, In c u -> ~ In c [10216; 91; 124; 60; 62]) -> Forall (fun c => ~ In c [10216; 91; 124; 60; 62]) u) by (intros u; apply Forall_forall).
  destruct t as [n|a| | | | | | |]; cbn [st tok_text]; try (apply Q, N; intros c I; inl I; cbn; lia).
  - apply Q, N. intros c I. eapply dec_in in I; [|exact K]. cbn. lia.
  - destruct (rank a <=? w)%nat eqn:E; [|apply H1; auto]. unfold call. apply each_app. split; [apply Q, N; intros c I; inl I; cbn; lia|].
    apply each_app. split; [|apply Q, N; intros c I; inl I; cbn; lia]. exact (H2 a (115 :: 80 :: 111 :: b) eq_refl E).
  - destruct p; (apply Q, N; intros c I; inl I; cbn; lia).
Qed.
Lemma quietc_not c : quietc c -> ~ In c [10216; 91; 124; 60; 62].
Proof. unfold quietc, inv_char, signs. intros (A & B). cbn in A |- *. lia. Qed.
Lemma head_bra a c s r : c = 10216 \/ c = 91 -> inv_ok a -> inv_text a ++ r = c :: s -> exists i s', 0 <= i /\ s = dec i ++ 124 :: s'.
Proof.
  intros C K E. destruct a as [i j|i j|n|l i m ms j k|m ms|m ms|n|n|n|n m ns]; cbn [inv_ok] in K; cbn [inv_text] in E; try (exfalso; cbn in E; injection E as E1 E2; lia).
  - injection E as _ <-. exists i. eexists. split; [tauto|]. rewrite <- app_assoc. cbn [app]. reflexivity.
  - injection E as _ <-. exists i. eexists. split; [tauto|]. rewrite <- app_assoc. cbn [app]. reflexivity.
  - injection E as _ <-. exists i. eexists. split; [unfold label in K; lia|]. rewrite <- app_assoc. unfold slots. cbn [map concat]. unfold barred at 1. cbn [app]. reflexivity.
Qed.
(* ---- passes without effect ---- *)
Lemma spin_none f g h out b c u v : (f c = true -> stops v /\ match v with x :: _ => g x = false | [] => True end) -> numeric u -> m_spin f g h out b (c :: u ++ v) = None.
Proof.
  intros H N. unfold m_spin. destruct (f c); [|reflexivity]. destruct (H eq_refl) as [S G]. cbv zeta. rewrite digits_app by assumption. destruct u as [|y u]; [reflexivity|]. rewrite skipn_app'.
  destruct v as [|x [|z v]]; try reflexivity. rewrite G. reflexivity.
Qed.
Lemma pass_spin f g h out w t b r : tok_ok t -> after true t r -> (forall c, f c = true -> In c [10216; 60; 91; 124; 62]) -> (forall x, g x = true -> In x [95; 100; 94; 117]) ->
  each (none (m_spin f g h out)) b (st true w t) r.
Proof.
  intros K A Hf Hg.
  assert (Hc : forall b c s, ~ In c [10216; 91; 124; 60; 62] -> none (m_spin f g h out) b c s).
  { intros b' c s N. unfold none, m_spin. destruct (f c) eqn:E; [|reflexivity]. apply Hf in E. exfalso. apply N. cbn in E |- *. tauto. }
  assert (G : forall x, ~ In x [95; 100; 94; 117] -> g x = false) by (intros x N; destruct (g x) eqn:E; [apply Hg in E; contradiction|reflexivity]).
  assert (Hb : forall D b s r', bar_at D b s r' -> (D -> stops r' /\ match r' with x :: _ => g x = false | [] => True end) -> none (m_spin f g h out) b 124 s).
  { intros D b' s r' (_ & _ & (u & v & -> & N & C)) HD. apply spin_none; [|exact N]. intros _. destruct C as [(-> & C)|(k & v' & -> & C)]; [exact (HD C)|].
    split; [|apply G]; inl C; cbn; try reflexivity; lia. }
  assert (Hh : forall a b s r' c, inv_ok a -> c = 10216 \/ c = 91 -> inv_text a ++ r' = c :: s -> none (m_spin f g h out) b c s).
  { intros a b' s r' c Ka C E. destruct (head_bra a c s r' C Ka E) as (i & s' & Hi & ->). apply spin_none; [|apply dec_numeric, Hi]. intros _. split; [reflexivity|]. apply G. cbn. lia. }
  apply each_tok; [exact K|exact Hc| |].
  - intros a -> _. apply (each_inv (none (m_spin f g h out)) r (digit_end a = true)); [| |exact K|auto|].
    + intros b' s B. eapply Hb; [exact B|]. intros E. destruct r as [|c r]; [split; exact I|]. cbn in A. destruct A as (A1 & A2 & A3). specialize (A3 E). specialize (A2 eq_refl). split; [exact A3|]. apply G. destruct A1 as [A1|A1]; [congruence|]. cbn in A1 |- *. lia.
    + intros b' c s Q. apply Hc, quietc_not, Q.
    + intros c s C E. eapply Hh; eassumption.
  - intros a b0 -> _. apply (each_inv (none (m_spin f g h out)) (39 :: 41 :: r) (digit_end a = true)); [| |exact K|auto|].
    + intros b' s B. eapply Hb; [exact B|]. intros _. split; [reflexivity|]. apply G. cbn. lia.
    + intros b' c s Q. apply Hc, quietc_not, Q.
    + intros c s C E. eapply Hh; eassumption.
Qed.
(* passes that start at a bracket *)
Lemma each_bra m p bra w t b r : tok_ok t -> bra = 10216 \/ bra = 91 -> (forall b c s, c <> bra -> m b (c :: s) = None) ->
  (forall a b r' s, t = TInv a -> (r' = r \/ r' = 39 :: 41 :: r) -> inv_text a ++ r' = bra :: s -> m b (bra :: s) = None) -> each (none m) b (st p w t) r.
Proof.
  intros K B H1 H2. apply each_tok; [exact K| | |].
  - intros b' c s N. apply H1. intros ->. apply N. cbn. destruct B as [-> | ->]; tauto.
  - intros a -> _. apply (each_inv _ r True); [| |exact K|auto|].
    + intros b' s _. apply H1. destruct B as [-> | ->]; discriminate.
    + intros b' c s Q. apply H1. intros ->. destruct Q as (_ & Q1 & Q2 & _). destruct B as [-> | ->]; congruence.
    + intros c s C E. destruct (Z.eq_dec c bra) as [->|N]; [eapply H2; [reflexivity| |exact E]; auto|apply H1, N].
  - intros a b0 -> _. apply (each_inv _ (39 :: 41 :: r) True); [| |exact K|auto|].
    + intros b' s _. apply H1. destruct B as [-> | ->]; discriminate.
    + intros b' c s Q. apply H1. intros ->. destruct Q as (_ & Q1 & Q2 & _). destruct B as [-> | ->]; congruence.
    + intros c s C E. destruct (Z.eq_dec c bra) as [->|N]; [eapply H2; [reflexivity| |exact E]; auto|apply H1, N].
Qed.
(* two digits without a bar do not occur *)
Lemma bis_other bra kt c b s : c <> bra -> m_bis bra kt b (c :: s) = None.
Proof. intros H. unfold m_bis. destruct s as [|i [|j [|e s]]]; try reflexivity. rewrite (proj2 (Z.eqb_neq c bra) H). reflexivity. Qed.
Lemma bis_two bra kt b i s : is_digit kt = false -> kt <> 124 -> 0 <= i -> m_bis bra kt b (bra :: dec i ++ 124 :: s) = None.
Proof.
  intros K1 K2 H. assert (D := dec_numeric i H). destruct (dec i) as [|d1 [|d2 [|d3 ds]]] eqn:E; [apply dec_nil in E; [contradiction|exact H]| | |]; cbn [app m_bis].
  - destruct s as [|x s]; [reflexivity|]. replace (is_digit 124) with false by reflexivity. rewrite !andb_false_r. reflexivity.
  - rewrite (proj2 (Z.eqb_neq 124 kt)) by congruence. rewrite andb_false_r. reflexivity.
  - assert (d3 <> kt). { intros ->. apply Forall_forall with (x := kt) in D; [congruence|cbn; tauto]. }
    rewrite (proj2 (Z.eqb_neq d3 kt)) by assumption. rewrite andb_false_r. reflexivity.
Qed.
Lemma pass_bis bra kt w t b r : (bra = 10216 /\ kt = 10217) \/ (bra = 91 /\ kt = 93) -> tok_ok t -> each (none (m_bis bra kt)) b (st true w t) r.
Proof.
  intros C K. assert (B : bra = 10216 \/ bra = 91) by lia. apply (each_bra _ true bra); [exact K|exact B|intros; apply bis_other; assumption|].
  intros a b' r' s -> _ E. destruct (head_bra a bra s r' B K E) as (i & s' & Hi & ->). apply bis_two; [|lia|exact Hi]. destruct C as [(_ & ->)|(_ & ->)]; reflexivity.
Qed.
(* ---- invariants become calls ---- *)
Lemma pass_wrap m w p ts : (forall a b r, inv_ok a -> rank a = S w -> after p (TInv a) r -> m b (inv_text a ++ r) = Some (length (inv_text a), call (inv_text a))) ->
  (forall t b r, tok_ok t -> after p t r -> (forall a, t = TInv a -> rank a <> S w) -> each (none m) b (st true w t) r) ->
  Forall tok_ok ts -> (forall l t ts', ts = l ++ t :: ts' -> after p t (txt (st true w) ts')) -> re_sub m [] 0 (txt (st true w) ts) = txt (st true (S w)) ts.
Proof.
  intros H1 H2 F A. apply (pass m p (st true w) (st true (S w))); [|exact F|exact A]. intros t b r K B.
  assert (X : (exists a, t = TInv a /\ rank a = S w) \/ (forall a, t = TInv a -> rank a <> S w)).
  { destruct t as [n|a| | | | | | |]; try (right; intros; discriminate). destruct (Nat.eq_dec (rank a) (S w)) as [E|E]; [left; eauto|right]. intros a' E'. injection E' as <-. exact E. }
  destruct X as [(a & -> & E)|X].
  - cbn [st]. rewrite E, Nat.leb_refl. replace (S w <=? w)%nat with false by (symmetry; apply Nat.leb_gt; lia). apply sub_match; [|apply H1; assumption].
    destruct a; discriminate.
  - replace (st true (S w) t) with (st true w t); [apply sub_each, H2; assumption|]. destruct t as [n|a| | | | | | |]; try reflexivity. cbn [st]. specialize (X a eq_refl).
    destruct (Nat.leb_spec (rank a) w), (Nat.leb_spec (rank a) (S w)); try reflexivity; lia.
Qed.
Lemma two_other bra kt c b s : c <> bra -> m_two bra kt b (c :: s) = None.
Proof. intros H. unfold m_two. rewrite (proj2 (Z.eqb_neq c bra) H). reflexivity. Qed.
Lemma two_match bra kt b i j r : is_digit kt = false -> 0 <= i -> 0 <= j ->
  m_two bra kt b ((bra :: dec i ++ 124 :: dec j ++ [kt]) ++ r) = Some (length (bra :: dec i ++ 124 :: dec j ++ [kt]), call (bra :: dec i ++ 124 :: dec j ++ [kt])).
Proof.
  intros K Hi Hj. cbn [app m_two]. cbv zeta. rewrite Z.eqb_refl. rewrite <- app_assoc. cbn [app]. rewrite <- app_assoc. cbn [app].
  rewrite digits_app by (try apply dec_numeric, Hi; reflexivity).
  destruct (dec i) as [|d ds] eqn:E; [apply dec_nil in E; [contradiction|exact Hi]|]. rewrite <- E. rewrite skipn_app'. rewrite Z.eqb_refl.
  rewrite digits_app by (try apply dec_numeric, Hj; exact K).
  destruct (dec j) as [|d' ds'] eqn:E'; [apply dec_nil in E'; [contradiction|exact Hj]|]. rewrite <- E'. rewrite skipn_app'. rewrite Z.eqb_refl.
  f_equal. f_equal. cbn [length]. rewrite app_length. cbn [length]. rewrite app_length. cbn [length]. lia.
Qed.
Lemma two_chain bra kt b i u k v : 0 <= i -> numeric u -> is_digit k = false -> k <> kt -> m_two bra kt b (bra :: dec i ++ 124 :: u ++ k :: v) = None.
Proof.
  intros Hi N D Kk. unfold m_two. rewrite Z.eqb_refl. cbv zeta. rewrite digits_app by (try apply dec_numeric, Hi; reflexivity).
  destruct (dec i) as [|d ds] eqn:E; [reflexivity|]. rewrite <- E. rewrite skipn_app'. rewrite Z.eqb_refl. rewrite digits_app by assumption. destruct u as [|x u]; [reflexivity|]. rewrite skipn_app'.
  rewrite (proj2 (Z.eqb_neq k kt) Kk). reflexivity.
Qed.
Lemma chain_next m ms t : Forall slot_ok (m :: ms) -> exists u k v, slots (m :: ms) ++ 124 :: t = 124 :: u ++ k :: v /\ numeric u /\ In k stop_list.
Proof.
  intros F. inversion F as [|? ? K F']; subst. destruct (slots_head ms 124 t ltac:(cbn; tauto)) as (k & v & E & I).
  destruct (slot_next m _ k v K E I) as (u & k' & v' & E' & N & I'). exists u, k', v'. split; [|split; assumption]. unfold slots at 1. cbn [map concat]. unfold barred at 1. cbn [app]. f_equal. rewrite <- app_assoc. exact E'.
Qed.
Lemma chain_eq l i m ms j k r : inv_text (WChain l i m ms j k) ++ r = (if l then 10216 else 91) :: dec i ++ slots (m :: ms) ++ 124 :: dec j ++ (if k then 10217 else 93) :: r.
Proof. cbn [inv_text app]. f_equal. rewrite <- app_assoc. f_equal. rewrite <- app_assoc. f_equal. cbn [app]. f_equal. rewrite <- app_assoc. reflexivity. Qed.
Lemma pass_two bra kt w ts : (bra = 10216 /\ kt = 10217 /\ w = 0%nat) \/ (bra = 91 /\ kt = 93 /\ w = 1%nat) -> Forall tok_ok ts -> (forall l t ts', ts = l ++ t :: ts' -> after true t (txt (st true w) ts')) ->
  re_sub (m_two bra kt) [] 0 (txt (st true w) ts) = txt (st true (S w)) ts.
Proof.
  intros C F A. assert (D : is_digit kt = false) by (destruct C as [(_ & -> & _)|(_ & -> & _)]; reflexivity). apply (pass_wrap _ w true); [| |exact F|exact A].
  - intros a b r K R _. destruct C as [(-> & -> & ->)|(-> & -> & ->)]; destruct a; try discriminate R; cbn in K; apply two_match; tauto.
  - intros t b r K _ X. apply (each_bra _ true bra); [exact K|lia|intros; apply two_other; assumption|]. intros a b' r' s -> Hr E. specialize (X a eq_refl). cbn in K.
    destruct a as [i j|i j|n|l i m ms j k|m ms|m ms|n|n|n|n m ns]; cbn [inv_text] in E; try (exfalso; cbn in E; injection E as E1 E2; lia).
    + exfalso. cbn in E. injection E as E1 E2. destruct C as [(_ & _ & ->)|(-> & _ & _)]; [apply X; reflexivity|discriminate E1].
    + exfalso. cbn in E. injection E as E1 E2. destruct C as [(-> & _ & _)|(_ & _ & ->)]; [discriminate E1|apply X; reflexivity].
    + cbn [inv_ok] in K. destruct K as (K1 & K2 & K3). change (inv_text (WChain l i m ms j k) ++ r' = bra :: s) in E. rewrite chain_eq in E.
      assert (E3 : s = dec i ++ slots (m :: ms) ++ 124 :: dec j ++ (if k then 10217 else 93) :: r') by congruence. clear E. subst s.
      destruct (chain_next m ms (dec j ++ (if k then 10217 else 93) :: r') K2) as (u & k' & v & -> & N & I).
      unfold label in K1. apply two_chain; [lia|exact N| |]; inl I; try reflexivity; destruct C as [(_ & -> & _)|(_ & -> & _)]; discriminate.
Qed.
