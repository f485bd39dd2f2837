(* Proofs about SetPairMore.v, fourth part: a two-bracket and a chain, two three-brackets. *)
From Coq Require Import List ZArith Bool Lia Ring Field Permutation.
From Verif Require Import Base Fld Particle ParticleSpec ParticleThm Index IndexThm Phase PhaseSpec PhaseThm
  Arcs ArcsThm Compute ComputeSpec ComputeThm ComputeThm2 ComputeThm3 DetThm SetOne SetSpec SetThm SetThm2 SetThm3 SetThm4 SetThm5 SetThm7 SetThm8 SetPair SetPairSpec SetPairThm
  SetPairMore SetMoreSpec SetMoreThm SetMoreThm2 SetMoreThm3.
Import ListNotations.

Section More.
Context {K : Fld}.
Open Scope fld_scope.
Add Field Kmo4 : (fth K).
Implicit Types (s : ps K) (r l : Z -> v2 K) (k : Z) (X v w : K) (o : obr) (c : cbr) (ms : list (list Z)).

Lemma pm_ok v : plus_minus (Ok v) v. Proof. left. reflexivity. Qed.
Lemma pm_up x v : plus_minus (K := K) (Ok x) v -> up_to_sign x v = true.
Proof. unfold up_to_sign. intros [H|H]; injection H as ->; rewrite feqb_refl; auto using orb_true_r. Qed.
Lemma pair_checked_pm (inner : QM pair_ret) value t1 v1 t2 (w2 : K) s s' : inner s = (s', Ok PNone) ->
  plus_minus (value s' t1) v1 -> plus_minus (value s' t2) w2 -> total_mom s' = mzero -> Forall (fun p => fresh p) s' ->
  pair_checked inner value t1 v1 t2 w2 s = (s', Ok tt).
Proof.
  intros E V1 V2 M O. unfold pair_checked. rewrite (bind_ok _ _ _ _ _ E). rewrite (bind_ok _ _ _ s' (t1, t2)) by reflexivity.
  rewrite bind_get. cbn [fst snd].
  destruct (value s' t1) as [x1|] eqn:E1; [|destruct V1; discriminate]. destruct (value s' t2) as [x2|] eqn:E2; [|destruct V2; discriminate].
  rewrite !(bind_lift _ _ _ _ eq_refl). destruct (checks_ok s' M O) as [-> ->]. rewrite (pm_up _ _ V1), (pm_up _ _ V2). reflexivity.
Qed.
Lemma br_only an o g (a b : Z) r l r' l' : o <> OLt -> only o g r l r' l' -> (In g [a; b] -> angle_o o <> an) -> br an r' l' a b = br an r l a b.
Proof.
  intros No [O1 O2] U. destruct (in_dec Z.eq_dec g [a; b]) as [I|I].
  - specialize (U I). unfold br. destruct o; try congruence; cbn [oflag angle_o] in O2, U; destruct an; try congruence; rewrite O2; reflexivity.
  - apply br_keep; apply O1; intros ->; apply I; cbn; auto.
Qed.
Lemma all_plus ms : Forall (fun m => m <> []) ms -> forallb (fun e : entry => forallb fst (snd e)) (map ent ms) = true.
Proof.
  induction 1 as [|m ms N _ IH]; [reflexivity|]. cbn [map forallb]. rewrite IH, andb_true_r. destruct m as [|i m]; [congruence|]. cbn [ent snd].
  apply forallb_forall. intros x Hx. apply in_map_iff in Hx as (y & <- & _). reflexivity.
Qed.
Lemma inner_two_chain cv so xa xe fuel an (a b : Z) v1 o sa ms e c (w2 : K) s : entries_ok s ms ->
  set_pair_inner cv so (the_others cv so xa xe (Datatypes.S fuel)) (Datatypes.S fuel) (two an a b) v1 (chain_t o sa ms e c) w2 s =
  pair_two_NB cv so an a b v1 (o, sa, ms, e, c) w2 s.
Proof.
  intros H. pose proof (entries_nonempty s ms H) as N.
  transitivity (the_others cv so xa xe (Datatypes.S fuel) (two an a b) v1 (chain_t o sa ms e c) w2 s).
  - cbn [set_pair_inner]. unfold chain_t. destruct an; destruct o; destruct (map ent ms) as [|? [|]]; destruct c; reflexivity.
  - unfold the_others, chain_t. destruct an; unfold two; cbv iota.
    all: match goal with |- context [if ?b then _ else _] => replace b with true by (symmetry; exact (all_plus ms N)) end; rewrite (bind_lift _ _ _ _ (labels_ents ms N)); reflexivity.
Qed.

Lemma plan_can_fix so n an (a b : Z) x y mode h : plan_two_NB so n an a b x = Ok (y, mode, h) -> can_fix so n an a b y = Ok h.
Proof.
  intros H. unfold plan_two_NB in H. destruct (is_nil _ || _)%bool; [discriminate|].
  destruct (can_fix so n an a b x) as [w0|]; [|discriminate]. cbn [rbind] in H.
  destruct (match w0 with Some _ => Ok x | None => _ end) as [x1|] in H; [|discriminate]. cbn [rbind] in H.
  destruct x1 as [[[[o1 s1] ms1] e1] c1]. set (turn := (obr_eqb o1 (o_of an) && _)%bool) in H. set (x2 := if turn then _ else _) in H. destruct x2 as [[[[o2 s2] ms2] e2] c2]. 
  destruct (complementary so n _) as [pl|] in H; [|discriminate]. cbn [rbind] in H. 
  destruct (can_fix so n an a b _) as [h'|] eqn:E in H; [|discriminate]. cbn [rbind] in H. injection H as <- _ <-. exact E.
Qed.
(* setting the second string succeeds or divides by zero and changes one spinor of the leg g *)
Definition setter cv so o sa ms e c (w2 : K) (mode g : Z) (n : nat) : Prop :=
  forall s r l, view s r l -> length s = n ->
    (exists s', set_only cv so (chain_t o sa ms e c) w2 mode s = (s', Err ZeroDivisionError)) \/
    (exists s' r' l', set_only cv so (chain_t o sa ms e c) w2 mode s = (s', Ok tt) /\ view s' r' l' /\ step s s' [g] /\
       chv r' l' o sa ms e c = w2 /\ only o g r l r' l').
Theorem pair_two_chain_general cv so xa xe fuel an (a b : Z) v1 o sa ms e c (w2 : K) s o' sa' ms' e' c' mode p q axis g :
  set_like so -> Forall (fun x => fresh x) s -> inr s a -> inr s b -> a <> b -> good_chain (length s) o sa ms e c ->
  plan_two_NB so (length s) an a b (o, sa, ms, e, c) = Ok ((o', sa', ms', e', c'), mode, Some (p, q, axis)) ->
  setter cv so o' sa' ms' e' c' w2 mode g (length s) -> (In g [a; b] -> angle_o o' <> an) ->
  (snd (set_pair_all cv so xa xe (Datatypes.S fuel) (two an a b) v1 (chain_t o sa ms e c) w2 s) = Err ZeroDivisionError) \/
  (exists s', set_pair_all cv so xa xe (Datatypes.S fuel) (two an a b) v1 (chain_t o sa ms e c) w2 s = (s', Ok tt) /\
     made2_sign s s' (two an a b) v1 (chain_t o sa ms e c) w2 [b; g; p; q] /\
     c_target s' (two an a b) = Ok v1 /\ c_target s' (chain_t o' sa' ms' e' c') = Ok w2).
Proof.
  intros SO F Ha Hb Nab G PL ST U. pose proof (plan_can_fix _ _ _ _ _ _ _ _ _ PL) as CF. unfold set_pair_all, set_pair.
  destruct (good_entries s _ _ _ _ _ G) as (EN & _).
  set (inner := set_pair_inner _ _ _ _ _ _ _ _).
  assert (EI : inner s = pair_two_NB cv so an a b v1 (o, sa, ms, e, c) w2 s) by (apply inner_two_chain, EN).
  destruct (plan_two_NB_same (K := K) so (length s) an a b (o, sa, ms, e, c) _ _ _ SO G PL) as [G' SV].
  unfold pair_two_NB in EI. rewrite bind_get, (bind_lift _ _ _ _ PL) in EI.
  pose proof (view_of s F) as V. destruct (set_only_two cv so an s _ _ a b v1 1 SO V Ha Hb Nab) as [Z1 S1].
  destruct (feq_dec (fc an (rs s) (ls s) a)) as [Z|NZ].
  { left. apply pair_checked_err. rewrite EI, (bind_err _ _ _ _ _ (Z1 Z)). reflexivity. }
  destruct (S1 NZ) as (s1 & r1 & l1 & E1 & V1 & T1 & B1 & _). rewrite (bind_ok _ _ _ _ _ E1) in EI.
  destruct (ST s1 r1 l1 V1 (proj1 T1)) as [(sE & E2)|(s2 & r2 & l2 & E2 & V2 & T2 & C2 & O2)].
  { left. apply pair_checked_err. rewrite EI. change (chain_target _) with (chain_t o' sa' ms' e' c'). rewrite (bind_err _ _ _ _ _ E2). reflexivity. }
  change (chain_target _) with (chain_t o' sa' ms' e' c') in EI. rewrite (bind_ok _ _ _ _ _ E2) in EI.
  pose proof (step_trans _ _ _ _ _ T1 T2) as T12. pose proof (fun k => inr_step _ _ _ k T12) as J.
  assert (L2 : length s2 = length s) by apply T12.
  assert (G2 : good_chain (length s2) o' sa' ms' e' c') by (rewrite L2; exact G').
  destruct (good_entries s2 _ _ _ _ _ G2) as (EN' & Hs' & He' & B' & N').
  assert (X1 : c_target s2 (two an a b) = Ok v1).
  { rewrite (two_value an s2 _ _ a b V2 (J _ Ha) (J _ Hb)). f_equal. rewrite (br_only an o' g a b r1 l1 r2 l2 (proj1 B') O2 U). exact B1. }
  assert (X2 : c_target s2 (chain_t o' sa' ms' e' c') = Ok w2).
  { rewrite (target_view s2 r2 l2 o' sa' ms' e' c' V2 EN' N' Hs' He' B'). f_equal. exact C2. }
  assert (R : forall k, In k [a; b; sa'; e'] -> (1 <= k <= Z.of_nat (length s))%Z).
  { intros k [<-|[<-|[<-|[<-|[]]]]]; [apply Ha|apply Hb|apply G'|apply G']. }
  destruct (can_fix_sound so (length s) an a b o' sa' ms' e' c' p q axis SO R (proj1 B') (proj2 B') CF) as (CH & (P1 & P2) & (Q1 & Q2)).
  destruct (fix_restores cv s2 p q axis [two an a b; chain_t o' sa' ms' e' c'] (view_fresh _ _ _ V2)) as [E3|(s3 & E3 & RS)].
  - rewrite L2. exact CH.
  - intros t [<-|[<-|[]]]; [left|right; left].
    + exists an, a, b. split; [reflexivity|]. repeat split; auto; apply J; assumption.
    + exists o', sa', ms', e', c'. split; [reflexivity|]. destruct B'. repeat split; auto; try apply Hs'; try apply He'; try apply Q1; try apply Q2.
  - left. apply pair_checked_err. rewrite EI. cbn [fix_how]. rewrite (bind_err _ _ _ _ _ E3). reflexivity.
  - right. exists s3. destruct RS as (TM & FR & L3 & RE & VS). pose proof (Forall_inv VS) as VA. pose proof (Forall_inv (Forall_inv_tail VS)) as VB. cbv beta in VA, VB.
    rewrite X1 in VA. rewrite X2 in VB.
    assert (PM : plus_minus (c_target s3 (chain_t o sa ms e c)) w2).
    { destruct (SV s3 ltac:(congruence) FR TM) as (v & A1 & A2). change (chain_target _) with (chain_t o sa ms e c) in A1.
      change (chain_target _) with (chain_t o' sa' ms' e' c') in A2. rewrite VB in A2. rewrite A1. destruct A2 as [A2|A2]; injection A2 as ->; [left; reflexivity|].
      right. f_equal. ring. }
    assert (EF : inner s = (s3, Ok PNone)) by (rewrite EI; cbn [fix_how]; rewrite (bind_ok _ _ _ _ _ E3); reflexivity).
    split; [|split; [|split; assumption]].
    + apply pair_checked_pm; auto. rewrite VA. apply pm_ok.
    + constructor; auto; [rewrite VA; apply pm_ok|congruence|]. intros k Hk. rewrite RE by (intros ->; apply Hk; cbn; auto).
      apply (proj2 T12). intros I. apply Hk. cbn in *. intuition.
Qed.

(* ---- the two ways the chain is set ---- *)
Lemma setter_head cv so o sa ms e c (w2 : K) n : set_like so -> good_chain n o sa ms e c -> apart o sa ms e -> setter cv so o sa ms e c w2 1 sa n.
Proof.
  intros SO G Ap s r l V L. subst n. destruct (good_entries s _ _ _ _ _ G) as (H & Ha & Hd & B & N).
  destruct (chain_only_head cv so s r l o sa ms e c w2 SO V H N Ha Hd B Ap) as [S1 S2].
  destruct (feq_dec (e0 (wcol r l o ms e c))) as [Z|Z]; [left; eexists; apply S1, Z|right; apply S2, Z].
Qed.
Lemma setter_middle cv so o sa k m ms e c (w2 : K) n : set_like so -> good_chain n o sa ((k :: m) :: ms) e c ->
  ~ In k (sa :: concat ms ++ [e]) -> setter cv so o sa ((k :: m) :: ms) e c w2 2 k n.
Proof.
  intros SO G N1 s r l V L. subst n. destruct (good_entries s _ _ _ _ _ G) as (H & Ha & Hd & B & N).
  assert (N2 : ~ In k m). { destruct G as (_ & _ & _ & F & _). inversion F as [|? ? (_ & D & _) _]. inversion D. assumption. }
  destruct (chain_only_middle cv so s r l o sa [] k m ms e c w2 2 SO V H Ha Hd B ltac:(discriminate) ltac:(intros ? []) N1 N2) as [S1 S2].
  cbn [app] in S1, S2.
  destruct (feq_dec (vdot (row r l (swap_o o) k) (wcol r l (swap_o o) ms e c))) as [Z|Z]; [left; eexists; apply S1; auto|].
  destruct (feq_dec (pivot r l o sa)) as [Z'|Z']; [left; eexists; apply S1; auto|]. right. apply S2; assumption.
Qed.

(* ---- two free legs: what the plan is ---- *)
Lemma can_fix_two so n an (a b : Z) o sa ms e c p q rest : set_like so -> Forall (fun m => m <> []) ms ->
  free_legs n ([a; b] ++ sa :: concat ms ++ [e]) = p :: q :: rest -> can_fix so n an a b (o, sa, ms, e, c) = Ok (Some (p, q, 1%Z)).
Proof.
  intros SO N F. unfold can_fix. destruct (existsb is_nil ms) eqn:E.
  - apply existsb_exists in E as (m & Hm & E). rewrite Forall_forall in N. specialize (N m Hm). destruct m; [congruence|discriminate].
  - rewrite (complementary_free so n _ SO) by discriminate. cbn [rbind]. rewrite F. reflexivity.
Qed.
Lemma concat_rev_In (ms : list (list Z)) x : In x (concat (rev (map (@rev Z) ms))) <-> In x (concat ms).
Proof.
  rewrite !in_concat. split.
  - intros (m & Hm & Hx). apply in_rev in Hm. apply in_map_iff in Hm as (m' & <- & Hm'). exists m'. split; [exact Hm'|apply in_rev, Hx].
  - intros (m & Hm & Hx). exists (rev m). split; [apply -> in_rev; apply in_map, Hm|apply -> in_rev; exact Hx].
Qed.
Lemma backwards_flip n o sa ms e c : good_chain n o sa ms e c -> backwards (o, sa, ms, e, c) = flip_chain (o, sa, ms, e, c).
Proof.
  intros (No & Ec & _). unfold backwards, flip_chain. unfold end_of in Ec. destruct o; try congruence; destruct (Nat.even (length ms)); subst c; reflexivity.
Qed.
Lemma turn_turns n an (a : Z) o sa ms e c : good_chain n o sa ms e c ->
  (obr_eqb o (o_of an) && (negb (cbr_eqb c (c_of an)) || (Z.eqb a sa && negb (Z.eqb a e))))%bool = turns an a o sa e c.
Proof. intros (No & Ec & _). unfold turns. unfold end_of in Ec. destruct o; try congruence; destruct (Nat.even (length ms)); subst c; destruct an; reflexivity. Qed.
Lemma plan_two_free so n an (a b : Z) o sa ms e c p q rest o' sa' ms' e' c' : set_like so -> good_chain n o sa ms e c ->
  free_legs n ([a; b] ++ sa :: concat ms ++ [e]) = p :: q :: rest ->
  (o', sa', ms', e', c') = (if turns an a o sa e c then backwards (o, sa, ms, e, c) else (o, sa, ms, e, c)) ->
  good_chain n o' sa' ms' e' c' /\ length ms' = length ms /\
  ((In sa' [a; b] -> length ms = 1%nat) -> plan_two_NB so n an a b (o, sa, ms, e, c) = Ok ((o', sa', ms', e', c'), 1%Z, Some (p, q, 1%Z))) /\
  (forall m1 k m2 ms'', In sa' [a; b] -> ms' = (m1 ++ k :: m2) :: ms'' -> ms'' <> [] ->
     (forall x, In x m1 -> In x (concat ms'' ++ [a; b])) -> ~ In k (concat ms'' ++ [a; b]) ->
     exists m, Permutation (m1 ++ k :: m2) (k :: m) /\
       plan_two_NB so n an a b (o, sa, ms, e, c) = Ok ((o', sa', (k :: m) :: ms'', e', c'), 2%Z, Some (p, q, 1%Z))).
Proof.
  intros SO G FL TU.
  assert (NE : Forall (fun m => m <> []) ms). { destruct G as (_ & _ & _ & F & _). eapply Forall_impl; [|exact F]. intros m (A & _). exact A. }
  assert (G' : good_chain n o' sa' ms' e' c').
  { destruct (turns an a o sa e c); [|injection TU as -> -> -> -> ->; exact G]. rewrite (backwards_flip n _ _ _ _ _ G) in TU. injection TU as -> -> -> -> ->. apply good_flip, G. }
  assert (LEN : length ms' = length ms).
  { destruct (turns an a o sa e c); injection TU as -> -> -> -> ->; [rewrite rev_length, map_length|]; reflexivity. }
  assert (NE' : Forall (fun m => m <> []) ms'). { destruct G' as (_ & _ & _ & F & _). eapply Forall_impl; [|exact F]. intros m (A & _). exact A. }
  assert (IN : forall x, In x ([a; b] ++ sa' :: concat ms' ++ [e']) <-> In x ([a; b] ++ sa :: concat ms ++ [e])).
  { intros x. destruct (turns an a o sa e c); injection TU as -> -> -> -> ->; [|tauto]. rewrite !in_app_iff. cbn [In]. rewrite !in_app_iff, concat_rev_In. cbn [In]. tauto. }
  assert (FL' : free_legs n ([a; b] ++ sa' :: concat ms' ++ [e']) = p :: q :: rest) by (rewrite <- FL; apply free_legs_ext; exact IN).
  split; [exact G'|]. split; [exact LEN|].
  assert (HD : (is_nil ms || existsb is_nil ms)%bool = false).
  { apply orb_false_iff. split; [destruct G as (_ & _ & N & _); destruct ms; [congruence|reflexivity]|].
    destruct (existsb is_nil ms) eqn:E; [|reflexivity]. apply existsb_exists in E as (m & Hm & E). rewrite Forall_forall in NE. specialize (NE m Hm). destruct m; [congruence|discriminate]. }
  assert (PL : plan_two_NB so n an a b (o, sa, ms, e, c) =
    let two := (zmem sa' [a; b] && Nat.ltb 1 (length ms'))%bool in
    let x := if two then match seek_free a b (o', sa', ms', e', c') with Some y => y
                         | None => match seek_free a b (flip_chain (o', sa', ms', e', c')) with Some y => y | None => flip_chain (o', sa', ms', e', c') end end
             else (o', sa', ms', e', c') in
    rbind (can_fix so n an a b x) (fun hh => Ok (x, if two then 2%Z else 1%Z, hh))).
  { unfold plan_two_NB. cbn [fst snd]. rewrite HD. rewrite (can_fix_two so n an a b o sa ms e c p q rest SO NE FL). cbn [rbind].
    rewrite (turn_turns n an a o sa ms e c G). rewrite <- (backwards_flip n _ _ _ _ _ G).
    assert (TU' : (if turns an a o sa e c then backwards (o, sa, ms, e, c) else (o, sa, ms, e, c)) = ((o', sa', ms', e', c') : chain)) by (symmetry; exact TU).
    destruct (turns an a o sa e c); [rewrite TU'|injection TU' as -> -> -> -> ->]; cbv iota beta.
    all: rewrite (complementary_free so n _ SO) by discriminate; cbn [rbind]; rewrite FL'; cbn [is_nil orb]; reflexivity. }
  split.
  - intros H1. rewrite PL. cbn zeta. replace (zmem sa' [a; b] && Nat.ltb 1 (length ms'))%bool with false.
    + rewrite (can_fix_two so n an a b o' sa' ms' e' c' p q rest SO NE' FL'). reflexivity.
    + destruct (zmem sa' [a; b]) eqn:E; [|reflexivity]. apply zmem_true in E. rewrite LEN, (H1 E). reflexivity.
  - intros m1 k m2 ms'' I1 E N Hm1 Nk. subst ms'. destruct (swap_front_perm m1 k m2) as (m & Em & Pm). exists m. split; [exact Pm|].
    rewrite PL. cbn zeta. rewrite (proj2 (zmem_true _ _) I1). cbn [length]. replace (Nat.ltb 1 (S (length ms''))) with true by (destruct ms''; [congruence|reflexivity]).
    cbn [andb].
    assert (SK : seek_free a b (o', sa', (m1 ++ k :: m2) :: ms'', e', c') = Some (o', sa', (k :: m) :: ms'', e', c')).
    { unfold seek_free. cbn [tl hd]. rewrite (find_unique_here _ m1 k m2 0 Hm1 Nk). cbn [Nat.add]. rewrite Em. reflexivity. }
    rewrite SK.
    rewrite (can_fix_two so n an a b o' sa' ((k :: m) :: ms'') e' c' p q rest SO).
    + reflexivity.
    + inversion NE'. constructor; [discriminate|assumption].
    + rewrite <- FL'. apply free_legs_ext. intros x. cbn [concat]. rewrite !in_app_iff. cbn [In]. rewrite !in_app_iff.
      assert (J : In x (k :: m) <-> In x (m1 ++ k :: m2)) by (split; apply Permutation_in; [apply Permutation_sym|]; exact Pm). rewrite J. rewrite in_app_iff. tauto.
Qed.

Theorem pair_two_chain_head cv so xa xe fuel an (a b : Z) v1 o sa ms e c (w2 : K) s p q rest o' sa' ms' e' c' :
  set_like so -> Forall (fun x => fresh x) s -> inr s a -> inr s b -> a <> b -> good_chain (length s) o sa ms e c ->
  free_legs (length s) ([a; b] ++ sa :: concat ms ++ [e]) = p :: q :: rest ->
  (o', sa', ms', e', c') = (if turns an a o sa e c then backwards (o, sa, ms, e, c) else (o, sa, ms, e, c)) ->
  ~ In sa' (concat ms) -> (sa' <> e' \/ Nat.odd (length ms) = true) ->
  (In sa' [a; b] -> length ms = 1%nat /\ angle_o o' <> an) ->
  (snd (set_pair_all cv so xa xe (Datatypes.S fuel) (two an a b) v1 (chain_t o sa ms e c) w2 s) = Err ZeroDivisionError) \/
  (exists s', set_pair_all cv so xa xe (Datatypes.S fuel) (two an a b) v1 (chain_t o sa ms e c) w2 s = (s', Ok tt) /\
     made2_sign s s' (two an a b) v1 (chain_t o sa ms e c) w2 [b; sa'; p; q]).
Proof.
  intros SO F Ha Hb N G FL TU A1 A2 U.
  destruct (plan_two_free so (length s) an a b o sa ms e c p q rest o' sa' ms' e' c' SO G FL TU) as (G' & LEN & PL & _).
  assert (A1' : ~ In sa' (concat ms')).
  { destruct (turns an a o sa e c); injection TU as -> -> -> -> ->; [rewrite concat_rev_In|]; exact A1. }
  assert (Ap : apart o' sa' ms' e') by (split; [exact A1'|rewrite LEN; exact A2]).
  destruct (pair_two_chain_general cv so xa xe fuel an a b v1 o sa ms e c w2 s o' sa' ms' e' c' 1 p q 1 sa' SO F Ha Hb N G
     (PL (fun I => proj1 (U I))) (setter_head cv so _ _ _ _ _ w2 _ SO G' Ap) (fun I => proj2 (U I))) as [E|(s' & E & M & _)]; [left; exact E|right; eauto].
Qed.
Theorem pair_two_chain_middle cv so xa xe fuel an (a b : Z) v1 o sa ms e c (w2 : K) s p q rest o' sa' m1 k m2 ms'' e' c' :
  set_like so -> Forall (fun x => fresh x) s -> inr s a -> inr s b -> a <> b -> good_chain (length s) o sa ms e c ->
  free_legs (length s) ([a; b] ++ sa :: concat ms ++ [e]) = p :: q :: rest ->
  (o', sa', (m1 ++ k :: m2) :: ms'', e', c') = (if turns an a o sa e c then backwards (o, sa, ms, e, c) else (o, sa, ms, e, c)) ->
  In sa' [a; b] -> ms'' <> [] -> (forall x, In x m1 -> In x (concat ms'' ++ [a; b])) -> ~ In k (concat ms'' ++ [a; b]) -> k <> e' ->
  (snd (set_pair_all cv so xa xe (Datatypes.S fuel) (two an a b) v1 (chain_t o sa ms e c) w2 s) = Err ZeroDivisionError) \/
  (exists s', set_pair_all cv so xa xe (Datatypes.S fuel) (two an a b) v1 (chain_t o sa ms e c) w2 s = (s', Ok tt) /\
     made2_sign s s' (two an a b) v1 (chain_t o sa ms e c) w2 [b; k; p; q]).
Proof.
  intros SO F Ha Hb N G FL TU I1 NE H1 Nk Ne.
  destruct (plan_two_free so (length s) an a b o sa ms e c p q rest o' sa' _ e' c' SO G FL TU) as (G' & LEN & _ & PL).
  destruct (PL m1 k m2 ms'' I1 eq_refl NE H1 Nk) as (m & Pm & PL').
  pose proof (good_perm _ _ _ _ _ _ _ _ Pm G') as G2.
  assert (NK : ~ In k (sa' :: concat ms'' ++ [e'])).
  { intros [<-|I]; [apply Nk, in_app_iff; auto|]. apply in_app_iff in I as [I|[I|[]]]; [apply Nk, in_app_iff; auto|congruence]. }
  destruct (pair_two_chain_general cv so xa xe fuel an a b v1 o sa ms e c w2 s o' sa' _ e' c' 2 p q 1 k SO F Ha Hb N G
     PL' (setter_middle cv so _ _ _ _ _ _ _ w2 _ SO G2 NK)) as [E|(s' & E & M & _)]; [|left; exact E|right; eauto].
  intros I. exfalso. apply Nk, in_app_iff. auto.
Qed.
End More.
