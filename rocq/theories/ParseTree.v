(* Proofs about the parser and the fractions in trees. *)
From Coq Require Import Ascii String.
From Coq Require Import List ZArith Bool Lia.
From Verif Require Import Base Str Symm Parse ParseSpec MassesThm GenThm ParseStars ParseLex.
Import ListNotations.
Open Scope Z_scope.

(* ---- what the parser gets ---- *)
Inductive fexpr :=
| PNum (n : Z) | PFrac (a b : Z) | PInv (a : inv) | PPar (f : fexpr) | PPow (f g : fexpr) | PNeg (f : fexpr) | PPos (f : fexpr)
| PMul (f g : fexpr) | PDiv (f g : fexpr) | PAdd (f g : fexpr) | PSub (f g : fexpr).
Fixpoint ft (f : fexpr) : list ftok :=
  match f with
  | PNum n => [FT (TNum n)] | PFrac a b => [FF a b] | PInv a => [FT (TInv a)]
  | PPar a => FT TL :: ft a ++ [FT TR]
  | PPow a b => ft a ++ FT TCaret :: ft b
  | PNeg a => FT TMinus :: ft a | PPos a => FT TPlus :: ft a
  | PMul a b => ft a ++ FT TStar :: ft b
  | PDiv a b => ft a ++ FT TSlash :: ft b
  | PAdd a b => ft a ++ FT TPlus :: ft b
  | PSub a b => ft a ++ FT TMinus :: ft b
  end.
Fixpoint tree (f : fexpr) : ast :=
  match f with
  | PNum n => ANum n | PFrac a b => AFrac a b | PInv a => AoPs (inv_text a) | PPar a => tree a
  | PPow a b => APow (tree a) (tree b) | PNeg a => ANeg (tree a) | PPos a => APos (tree a)
  | PMul a b => AMul (tree a) (tree b) | PDiv a b => ADiv (tree a) (tree b) | PAdd a b => AAdd (tree a) (tree b) | PSub a b => ASub (tree a) (tree b)
  end.
Definition lv (f : fexpr) : nat :=
  match f with
  | PNum _ | PFrac _ _ | PInv _ | PPar _ => 3 | PPow _ _ | PNeg _ | PPos _ => 2 | PMul _ _ | PDiv _ _ => 1 | PAdd _ _ | PSub _ _ => 0
  end.
Fixpoint wfp (f : fexpr) : Prop :=
  match f with
  | PNum _ | PFrac _ _ | PInv _ => True
  | PPar a => wfp a
  | PPow a b => wfp a /\ wfp b /\ lv a = 3%nat /\ (2 <= lv b)%nat
  | PNeg a | PPos a => wfp a /\ (2 <= lv a)%nat
  | PMul a b | PDiv a b => wfp a /\ wfp b /\ (1 <= lv a)%nat /\ (2 <= lv b)%nat
  | PAdd a b | PSub a b => wfp a /\ wfp b /\ (1 <= lv b)%nat
  end.
Definition nopow (r : list ktok) : Prop := match r with KPow :: _ => False | _ => True end.
Definition noterm (r : list ktok) : Prop := match r with KOp c :: _ => c <> 42 /\ c <> 47 | _ => True end.
Definition nosum (r : list ktok) : Prop := match r with KOp c :: _ => c <> 43 /\ c <> 45 | _ => True end.
Definition N (f : fexpr) : nat := length (kts (ft f)).
Lemma kts_app a b : kts (a ++ b) = kts a ++ kts b. Proof. unfold kts. rewrite map_app, concat_app. reflexivity. Qed.
Lemma kts_cons t b : kts (t :: b) = kt t ++ kts b. Proof. reflexivity. Qed.
Lemma N_pos f : (1 <= N f)%nat.
Proof. unfold N. induction f; cbn [ft]; rewrite ?kts_app, ?kts_cons, ?app_length; cbn; lia. Qed.
Lemma term_stop g a r : (1 <= g)%nat -> noterm r -> term_loop g a r = Some (a, r).
Proof.
  intros G H. destruct g; [lia|]. cbn [term_loop]. destruct r as [|[] r]; try reflexivity. cbn in H. rewrite (proj2 (Z.eqb_neq c 42)), (proj2 (Z.eqb_neq c 47)) by tauto. reflexivity.
Qed.
Lemma sum_stop g a r : (1 <= g)%nat -> nosum r -> sum_loop g a r = Some (a, r).
Proof.
  intros G H. destruct g; [lia|]. cbn [sum_loop]. destruct r as [|[] r]; try reflexivity. cbn in H. rewrite (proj2 (Z.eqb_neq c 43)), (proj2 (Z.eqb_neq c 45)) by tauto. reflexivity.
Qed.
Lemma atom_start f : lv f = 3%nat -> exists t r, kts (ft f) = t :: r /\ forall c, t = KOp c -> c = 40.
Proof.
  destruct f as [n|x y|i|g|g h|g|g|g h|g h|g h|g h]; cbn; intros E; try discriminate E; eexists; eexists; (split; [reflexivity|]); intros c X; try discriminate X. injection X as <-. reflexivity.
Qed.
Lemma factor_power f t r : (forall c, t = KOp c -> c = 40) -> p_factor (S f) (t :: r) = p_power f (t :: r).
Proof. intros H. cbn [p_factor]. destruct t; try reflexivity. rewrite (H c eq_refl). reflexivity. Qed.
Definition parses (f : fexpr) : Prop :=
  (lv f = 3%nat -> forall n r, (6 * N f - 5 <= n)%nat -> p_atom n (kts (ft f) ++ r) = Some (tree f, r)) /\
  ((2 <= lv f)%nat -> forall n r, (6 * N f - 3 <= n)%nat -> nopow r -> p_factor n (kts (ft f) ++ r) = Some (tree f, r)) /\
  ((1 <= lv f)%nat -> forall n r, (6 * N f - 2 <= n)%nat -> nopow r -> exists g, (n + 3 <= g + 6 * N f)%nat /\ p_term n (kts (ft f) ++ r) = term_loop g (tree f) r) /\
  (forall n r, (6 * N f - 1 <= n)%nat -> nopow r -> noterm r -> exists g, (n + 2 <= g + 6 * N f)%nat /\ p_sum n (kts (ft f) ++ r) = sum_loop g (tree f) r).
(* from one level to the next *)
Lemma up_factor f : lv f = 3%nat -> (forall n r, (6 * N f - 5 <= n)%nat -> p_atom n (kts (ft f) ++ r) = Some (tree f, r)) ->
  forall n r, (6 * N f - 3 <= n)%nat -> nopow r -> p_factor n (kts (ft f) ++ r) = Some (tree f, r).
Proof.
  intros L H n r Hn P. assert (NP := N_pos f). destruct (atom_start f L) as (t & u & E & T). destruct n as [|[|n]]; try lia.
  assert (X : p_factor (S (S n)) (kts (ft f) ++ r) = p_power (S n) (kts (ft f) ++ r)) by (rewrite E; cbn [app]; apply factor_power, T).
  rewrite X. cbn [p_power]. rewrite H by lia. destruct r as [|[] r]; try reflexivity. contradiction.
Qed.
Lemma up_term f : (forall n r, (6 * N f - 3 <= n)%nat -> nopow r -> p_factor n (kts (ft f) ++ r) = Some (tree f, r)) ->
  forall n r, (6 * N f - 2 <= n)%nat -> nopow r -> exists g, (n + 3 <= g + 6 * N f)%nat /\ p_term n (kts (ft f) ++ r) = term_loop g (tree f) r.
Proof.
  intros H n r Hn P. assert (NP := N_pos f). destruct n as [|n]; [lia|]. exists n. split; [lia|]. cbn [p_term]. rewrite H by (try exact P; lia). reflexivity.
Qed.
Lemma up_sum f : (forall n r, (6 * N f - 2 <= n)%nat -> nopow r -> exists g, (n + 3 <= g + 6 * N f)%nat /\ p_term n (kts (ft f) ++ r) = term_loop g (tree f) r) ->
  forall n r, (6 * N f - 1 <= n)%nat -> nopow r -> noterm r -> exists g, (n + 2 <= g + 6 * N f)%nat /\ p_sum n (kts (ft f) ++ r) = sum_loop g (tree f) r.
Proof.
  intros H n r Hn P T. assert (NP := N_pos f). destruct n as [|n]; [lia|]. exists n. split; [lia|]. cbn [p_sum]. destruct (H n r ltac:(lia) P) as (g & G & ->). rewrite term_stop by (try exact T; lia). reflexivity.
Qed.
Lemma from_atom f : lv f = 3%nat -> (forall n r, (6 * N f - 5 <= n)%nat -> p_atom n (kts (ft f) ++ r) = Some (tree f, r)) -> parses f.
Proof.
  intros L H. assert (F := up_factor f L H). assert (T := up_term f F). assert (S := up_sum f T). split; [intros _; exact H|]. split; [intros _; exact F|]. split; [intros _; exact T|exact S].
Qed.
Lemma from_factor f : lv f = 2%nat -> (forall n r, (6 * N f - 3 <= n)%nat -> nopow r -> p_factor n (kts (ft f) ++ r) = Some (tree f, r)) -> parses f.
Proof.
  intros L F. assert (T := up_term f F). assert (S := up_sum f T). split; [intros X; congruence|]. split; [intros _; exact F|]. split; [intros _; exact T|exact S].
Qed.
Lemma from_term f : lv f = 1%nat -> (forall n r, (6 * N f - 2 <= n)%nat -> nopow r -> exists g, (n + 3 <= g + 6 * N f)%nat /\ p_term n (kts (ft f) ++ r) = term_loop g (tree f) r) -> parses f.
Proof.
  intros L T. assert (S := up_sum f T). split; [intros X; congruence|]. split; [intros X; lia|]. split; [intros _; exact T|exact S].
Qed.
Lemma parse_ok f : wfp f -> parses f.
Proof.
  induction f as [n|x y|i|f IH|f IHf g IHg|f IH|f IH|f IHf g IHg|f IHf g IHg|f IHf g IHg|f IHf g IHg]; intros W; cbn [wfp] in W.
  - apply from_atom; [reflexivity|]. intros [|m] r H; [cbn in H; lia|reflexivity].
  - apply from_atom; [reflexivity|]. intros [|m] r H; [cbn in H; lia|reflexivity].
  - apply from_atom; [reflexivity|]. intros [|m] r H; [cbn in H; lia|reflexivity].
  - apply from_atom; [reflexivity|]. intros n r H.
    assert (E : N (PPar f) = (N f + 2)%nat) by (unfold N; cbn [ft]; rewrite kts_cons, kts_app; cbn; rewrite app_length; cbn; lia). rewrite E in H. assert (NP := N_pos f). destruct n as [|n]; [lia|].
    cbn [ft]. rewrite kts_cons, kts_app. cbn [kt app]. rewrite <- app_assoc. change (kts [FT TR] ++ r) with (KOp 41 :: r). cbn [p_atom Z.eqb Pos.eqb].
    destruct (proj2 (proj2 (proj2 (IH W))) n (KOp 41 :: r) ltac:(lia) I ltac:(split; discriminate)) as (g & G & ->). rewrite sum_stop by (try (split; discriminate); lia). reflexivity.
  - destruct W as (Wf & Wg & L1 & L2). apply from_factor; [reflexivity|]. intros n r H P.
    assert (E : N (PPow f g) = (N f + N g + 1)%nat) by (unfold N; cbn [ft]; rewrite kts_app, kts_cons; cbn [kt app]; rewrite app_length; cbn; lia). rewrite E in H. assert (NP := N_pos f). assert (NQ := N_pos g).
    destruct n as [|[|n]]; try lia. cbn [ft]. rewrite kts_app, kts_cons. cbn [kt app]. rewrite <- app_assoc. cbn [app]. destruct (atom_start f L1) as (t & u & Et & T).
    assert (X : p_factor (S (S n)) (kts (ft f) ++ KPow :: kts (ft g) ++ r) = p_power (S n) (kts (ft f) ++ KPow :: kts (ft g) ++ r)) by (rewrite Et; cbn [app]; apply factor_power, T).
    rewrite X. cbn [p_power]. rewrite (proj1 (IHf Wf) L1) by lia. rewrite (proj1 (proj2 (IHg Wg)) L2) by (try exact P; lia). reflexivity.
  - destruct W as (Wf & L). apply from_factor; [reflexivity|]. intros n r H P.
    assert (E : N (PNeg f) = S (N f)) by reflexivity. rewrite E in H. assert (NP := N_pos f). destruct n as [|n]; [lia|]. cbn [ft]. rewrite kts_cons. cbn [kt app p_factor Z.eqb Pos.eqb]. rewrite (proj1 (proj2 (IH Wf)) L) by (try exact P; lia). reflexivity.
  - destruct W as (Wf & L). apply from_factor; [reflexivity|]. intros n r H P.
    assert (E : N (PPos f) = S (N f)) by reflexivity. rewrite E in H. assert (NP := N_pos f). destruct n as [|n]; [lia|]. cbn [ft]. rewrite kts_cons. cbn [kt app p_factor Z.eqb Pos.eqb]. rewrite (proj1 (proj2 (IH Wf)) L) by (try exact P; lia). reflexivity.
  - destruct W as (Wf & Wg & L1 & L2). apply from_term; [reflexivity|]. intros n r H P.
    assert (E : N (PMul f g) = (N f + N g + 1)%nat) by (unfold N; cbn [ft]; rewrite kts_app, kts_cons; cbn [kt app]; rewrite app_length; cbn; lia). rewrite E in H. assert (NP := N_pos f). assert (NQ := N_pos g).
    cbn [ft]. rewrite kts_app, kts_cons. cbn [kt app]. rewrite <- app_assoc. cbn [app]. destruct (proj1 (proj2 (proj2 (IHf Wf))) L1 n (KOp 42 :: kts (ft g) ++ r) ltac:(lia) I) as (k & G & ->).
    destruct k as [|k]; [lia|]. exists k. split; [lia|]. cbn [term_loop Z.eqb Pos.eqb]. rewrite (proj1 (proj2 (IHg Wg)) L2) by (try exact P; lia). reflexivity.
  - destruct W as (Wf & Wg & L1 & L2). apply from_term; [reflexivity|]. intros n r H P.
    assert (E : N (PDiv f g) = (N f + N g + 1)%nat) by (unfold N; cbn [ft]; rewrite kts_app, kts_cons; cbn [kt app]; rewrite app_length; cbn; lia). rewrite E in H. assert (NP := N_pos f). assert (NQ := N_pos g).
    cbn [ft]. rewrite kts_app, kts_cons. cbn [kt app]. rewrite <- app_assoc. cbn [app]. destruct (proj1 (proj2 (proj2 (IHf Wf))) L1 n (KOp 47 :: kts (ft g) ++ r) ltac:(lia) I) as (k & G & ->).
    destruct k as [|k]; [lia|]. exists k. split; [lia|]. cbn [term_loop Z.eqb Pos.eqb]. rewrite (proj1 (proj2 (IHg Wg)) L2) by (try exact P; lia). reflexivity.
  - destruct W as (Wf & Wg & L2). split; [discriminate|]. split; [intros X; cbn in X; lia|]. split; [intros X; cbn in X; lia|]. intros n r H P T.
    assert (E : N (PAdd f g) = (N f + N g + 1)%nat) by (unfold N; cbn [ft]; rewrite kts_app, kts_cons; cbn [kt app]; rewrite app_length; cbn; lia). rewrite E in H. assert (NP := N_pos f). assert (NQ := N_pos g).
    cbn [ft]. rewrite kts_app, kts_cons. cbn [kt app]. rewrite <- app_assoc. cbn [app]. destruct (proj2 (proj2 (proj2 (IHf Wf))) n (KOp 43 :: kts (ft g) ++ r) ltac:(lia) I ltac:(split; discriminate)) as (k & G & ->).
    destruct k as [|k]; [lia|]. exists k. split; [lia|]. cbn [sum_loop Z.eqb Pos.eqb]. destruct (proj1 (proj2 (proj2 (IHg Wg))) L2 k r ltac:(lia) P) as (k2 & G2 & ->). rewrite term_stop by (try exact T; lia). reflexivity.
  - destruct W as (Wf & Wg & L2). split; [discriminate|]. split; [intros X; cbn in X; lia|]. split; [intros X; cbn in X; lia|]. intros n r H P T.
    assert (E : N (PSub f g) = (N f + N g + 1)%nat) by (unfold N; cbn [ft]; rewrite kts_app, kts_cons; cbn [kt app]; rewrite app_length; cbn; lia). rewrite E in H. assert (NP := N_pos f). assert (NQ := N_pos g).
    cbn [ft]. rewrite kts_app, kts_cons. cbn [kt app]. rewrite <- app_assoc. cbn [app]. destruct (proj2 (proj2 (proj2 (IHf Wf))) n (KOp 45 :: kts (ft g) ++ r) ltac:(lia) I ltac:(split; discriminate)) as (k & G & ->).
    destruct k as [|k]; [lia|]. exists k. split; [lia|]. cbn [sum_loop Z.eqb Pos.eqb]. destruct (proj1 (proj2 (proj2 (IHg Wg))) L2 k r ltac:(lia) P) as (k2 & G2 & ->). rewrite term_stop by (try exact T; lia). reflexivity.
Qed.
Theorem p_sum_ok f : wfp f -> p_sum (6 * N f + 6) (kts (ft f)) = Some (tree f, []).
Proof.
  intros W. destruct (proj2 (proj2 (proj2 (parse_ok f W))) (6 * N f + 6)%nat [] ltac:(lia) I I) as (g & G & E). rewrite app_nil_r in E. rewrite E. apply sum_stop; [lia|exact I].
Qed.
