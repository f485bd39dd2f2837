(* Proofs about SetPairMore.v, third part: the strings that are set instead of the given ones. *)
From Coq Require Import List ZArith Bool Lia Ring Field Permutation.
From Verif Require Import Base Fld Particle ParticleSpec ParticleThm Index IndexThm Phase PhaseSpec PhaseThm
  Arcs ArcsThm Compute ComputeSpec ComputeThm ComputeThm2 ComputeThm3 DetThm SetOne SetSpec SetThm SetThm2 SetThm3 SetThm4 SetThm5 SetThm8 SetPair SetPairSpec SetPairThm
  SetPairMore SetMoreSpec SetMoreThm SetMoreThm2.
Import ListNotations.

Section More.
Context {K : Fld}.
Open Scope fld_scope.
Add Field Kmo3 : (fth K).
Implicit Types (s : ps K) (r l : Z -> v2 K) (k : Z) (X v w : K) (o : obr) (c : cbr) (ms : list (list Z)).

Lemma good_entries s o a ms d c : good_chain (length s) o a ms d c -> entries_ok s ms /\ inr s a /\ inr s d /\ str_ok o ms c /\ ms <> [].
Proof.
  intros (No & Ec & Nm & F & Ha & Hd). split; [|split; [exact Ha|split; [exact Hd|split; [split; assumption|exact Nm]]]].
  eapply Forall_impl; [|exact F]. intros m (A & _ & C). split; assumption.
Qed.
Lemma good_value s o a ms d c : Forall (fun x => fresh x) s -> good_chain (length s) o a ms d c ->
  c_target s (chain_t o a ms d c) = Ok (chv (rs s) (ls s) o a ms d c) /\ c_chain s o a (map ent ms) d c = Ok (chv (rs s) (ls s) o a ms d c).
Proof.
  intros F G. destruct (good_entries s o a ms d c G) as (H & Ha & Hd & B & N). split.
  - apply (target_view s _ _ o a ms d c (view_of s F) H N Ha Hd B).
  - apply (chain_view s _ _ o a ms d c (view_of s F) H N Ha Hd (str_bracket _ _ _ B)).
Qed.
Lemma same_refl n o a ms d c : good_chain n o a ms d c -> same_value (K := K) n (chain_t o a ms d c) (chain_t o a ms d c).
Proof. intros G s L F _. subst n. destruct (good_value s o a ms d c F G) as [E _]. rewrite E. eexists. split; [reflexivity|]. left. reflexivity. Qed.
Lemma same_trans n t1 t2 t3 : same_value (K := K) n t1 t2 -> same_value (K := K) n t2 t3 -> same_value (K := K) n t1 t3.
Proof.
  intros H1 H2 s L F T. destruct (H1 s L F T) as (v & E1 & P1). destruct (H2 s L F T) as (v' & E2 & P2). exists v. split; [exact E1|].
  rewrite E2 in P1. unfold plus_minus in *. destruct P1 as [P1|P1]; injection P1 as ->; [exact P2|].
  destruct P2 as [->| ->]; [right; reflexivity|]. left. f_equal. ring.
Qed.
Lemma same_view n o a ms d c o' a' ms' d' c' : good_chain n o a ms d c -> good_chain n o' a' ms' d' c' ->
  (forall r l, chv r l o' a' ms' d' c' = chv r l o a ms d c \/ chv r l o' a' ms' d' c' = - chv r l o a ms d c) ->
  same_value (K := K) n (chain_t o a ms d c) (chain_t o' a' ms' d' c').
Proof.
  intros G G' H s L F T. subst n. destruct (good_value s _ _ _ _ _ F G) as [E _]. destruct (good_value s _ _ _ _ _ F G') as [E' _].
  exists (chv (rs s) (ls s) o a ms d c). split; [exact E|]. unfold plus_minus. rewrite E'. destruct (H (rs s) (ls s)) as [->| ->]; auto.
Qed.
(* turning round *)
Lemma good_flip n o a ms d c : good_chain n o a ms d c -> good_chain n (facing_o c) d (rev (map (@rev Z) ms)) a (facing_c o).
Proof.
  intros (No & Ec & Nm & F & Ha & Hd). rewrite facing_open, facing_close.
  pose proof (str_rev o ms c (conj No Ec)) as [A B]. unfold good_chain. repeat split; auto; try lia.
  - rewrite B, !rev_length, map_length. reflexivity.
  - apply rev_nnil, map_nnil, Nm.
  - apply Forall_forall. intros m Hm. apply in_rev in Hm. apply in_map_iff in Hm as (m' & <- & Hm'). rewrite Forall_forall in F.
    destruct (F m' Hm') as (A1 & A2 & A3). split; [apply rev_nnil, A1|]. split; [apply NoDup_rev, A2|]. intros k Hk. apply A3, in_rev, Hk.
Qed.
Lemma same_flip n o a ms d c : good_chain n o a ms d c ->
  same_value (K := K) n (chain_t o a ms d c) (chain_t (facing_o c) d (rev (map (@rev Z) ms)) a (facing_c o)).
Proof.
  intros G. apply same_view; [exact G|apply good_flip, G|]. intros r l. rewrite facing_open, facing_close, chv_inner_rev.
  destruct G as (No & Ec & _). rewrite (chv_reverse r l o a ms d c (conj No Ec)). unfold rev_sign. destruct (Nat.even _); auto.
Qed.
(* the first sum in another order *)
Lemma good_perm n o a m m' ms d c : Permutation m m' -> good_chain n o a (m :: ms) d c -> good_chain n o a (m' :: ms) d c.
Proof.
  intros P (No & Ec & Nm & F & Ha & Hd). inversion F as [|? ? (A1 & A2 & A3) F']; subst.
  assert (NP : m' <> []) by (intros ->; apply Permutation_sym, Permutation_nil in P; auto).
  unfold good_chain. split; [exact No|]. split; [reflexivity|]. split; [discriminate|]. split; [|auto]. constructor; [|exact F'].
  split; [exact NP|]. split; [apply (Permutation_NoDup P A2)|]. intros k Hk. apply A3. apply (Permutation_in k (Permutation_sym P) Hk).
Qed.
Lemma same_perm n o a m m' ms d c : Permutation m m' -> good_chain n o a (m :: ms) d c -> same_value (K := K) n (chain_t o a (m :: ms) d c) (chain_t o a (m' :: ms) d c).
Proof. intros P G. apply same_view; [exact G|apply (good_perm _ _ _ _ _ _ _ _ P G)|]. intros r l. left. symmetry. apply chv_perm, P. Qed.
(* complements *)
Lemma good_set n o a ms1 m alt ms2 d c : good_chain n o a (ms1 ++ m :: ms2) d c -> alt <> [] -> NoDup alt -> (forall k, In k alt -> (1 <= k <= Z.of_nat n)%Z) ->
  good_chain n o a (ms1 ++ alt :: ms2) d c.
Proof.
  intros (No & Ec & Nm & F & Ha & Hd) A1 A2 A3. unfold good_chain. split; [exact No|]. split; [rewrite Ec, !app_length; reflexivity|].
  split; [destruct ms1; discriminate|]. split; [|auto]. apply Forall_app in F as [F1 F2]. inversion F2; subst. apply Forall_app. split; [exact F1|]. constructor; auto.
Qed.
(* the extra labels of _set_pair_A2_or_S2_and_NB: both ends for a single sum *)
Definition extra2 a ms1 ms2 d : list Z := match ms1, ms2 with [], [] => [a; d] | [], _ => [a] | _, [] => [d] | _, _ => [] end.
Lemma same_complement n o a ms1 m ms2 d c : good_chain n o a (ms1 ++ m :: ms2) d c ->
  let alt := free_legs n (m ++ extra2 a ms1 ms2 d) in alt <> [] ->
  good_chain n o a (ms1 ++ alt :: ms2) d c /\ same_value (K := K) n (chain_t o a (ms1 ++ m :: ms2) d c) (chain_t o a (ms1 ++ alt :: ms2) d c).
Proof.
  intros G alt Na.
  assert (G' : good_chain n o a (ms1 ++ alt :: ms2) d c).
  { apply (good_set n o a ms1 m alt ms2 d c G Na); [apply free_legs_NoDup|]. intros k Hk. apply free_legs_In in Hk. apply Hk. }
  split; [exact G'|]. intros s L F T. subst n.
  destruct (good_value s _ _ _ _ _ F G) as [E E1]. destruct (good_value s _ _ _ _ _ F G') as [E' E1'].
  exists (chv (rs s) (ls s) o a (ms1 ++ m :: ms2) d c). split; [exact E|]. rewrite E'. right. rewrite <- E1'.
  pose proof G as (No & Ec & _ & Fo & Ha & Hd). apply Forall_app in Fo as [_ Fo]. inversion Fo as [|? ? (B1 & B2 & B3) _]; subst.
  assert (BASE : forall m', NoDup m' -> m' <> [] -> legs_of s m' -> alt = free_legs (length s) (m' ++ extra a ms1 ms2 d) ->
     c_chain s o a (map ent (ms1 ++ m' :: ms2)) d (end_of o (length (ms1 ++ m :: ms2))) = Ok (chv (rs s) (ls s) o a (ms1 ++ m :: ms2) d (end_of o (length (ms1 ++ m :: ms2)))) ->
     c_chain s o a (map ent (ms1 ++ alt :: ms2)) d (end_of o (length (ms1 ++ m :: ms2))) = Ok (- chv (rs s) (ls s) o a (ms1 ++ m :: ms2) d (end_of o (length (ms1 ++ m :: ms2))))).
  { intros m' D1 D2 D3 D4 D5. rewrite D4. apply (flip_value s o a ms1 m' ms2 d _ _ F T No Ha Hd D1 D2 D3); [rewrite <- D4; exact Na|exact D5]. }
  destruct (match ms1, ms2 with [], [] => true | _, _ => false end) eqn:C1.
  - destruct ms1; [|discriminate]. destruct ms2; [|discriminate]. cbn [app] in *.
    destruct (in_dec Z.eq_dec d m) as [I|I].
    + apply (BASE m B2 B1 B3); [|exact E1]. unfold alt, extra, extra2. apply free_legs_ext. intros k. rewrite !in_app_iff. cbn. intuition congruence.
    + apply (BASE (m ++ [d])).
      * apply NoDup_app'; auto; [constructor; auto; constructor|]. intros k Hk [->|[]]. auto.
      * destruct m; discriminate.
      * intros k Hk. apply in_app_iff in Hk as [Hk|[<-|[]]]; [apply B3, Hk|apply Hd].
      * unfold alt, extra, extra2. apply free_legs_ext. intros k. rewrite !in_app_iff. cbn. intuition congruence.
      * cbn [app map]. rewrite ent_app by exact B1.
        apply (chain_last_leg s o a [] (ent m) d _ _ (view_sound s _ _ (view_of s F)) No (massless_of s d F Hd)). exact E1.
  - apply (BASE m B2 B1 B3); [|exact E1]. unfold alt, extra, extra2. destruct ms1, ms2; try discriminate; reflexivity.
Qed.

(* ---- the plan for a two-bracket and a chain ---- *)
Definition chain_good n (x : chain) : Prop := let '(o, a, ms, d, c) := x in good_chain n o a ms d c.
Definition chain_same n (x y : chain) : Prop := chain_good n y /\ same_value (K := K) n (chain_target x) (chain_target y).
Lemma chain_same_refl n x : chain_good n x -> chain_same n x x.
Proof. intros G. split; [exact G|]. destruct x as [[[[o a] ms] d] c]. apply same_refl, G. Qed.
Lemma chain_same_trans n x y z : chain_same n x y -> chain_same n y z -> chain_same n x z.
Proof. intros [_ H1] [G H2]. split; [exact G|]. apply (same_trans _ _ _ _ H1 H2). Qed.
Lemma chain_same_flip n x : chain_good n x -> chain_same n x (flip_chain x).
Proof. intros G. destruct x as [[[[o a] ms] d] c]. split; [apply good_flip, G|apply same_flip, G]. Qed.
Lemma chain_same_seek n a b x y : chain_good n x -> seek_free a b x = Some y -> chain_same n x y.
Proof.
  intros G H. destruct x as [[[[o sa] ms] d] c]. unfold seek_free in H. destruct (find_unique _ _ _) as [[z j]|] eqn:E; [|discriminate]. injection H as <-.
  destruct ms as [|m ms]; [destruct G as (_ & _ & N & _); congruence|]. cbn [hd tl] in *.
  apply find_unique_spec in E. destruct E as (l1 & l2 & -> & -> & _). destruct (swap_front_perm l1 z l2) as (m1 & E1 & P).
  cbn [Nat.add]. rewrite E1. split; [apply (good_perm _ _ _ _ _ _ _ _ P G)|apply (same_perm _ _ _ _ _ _ _ _ P G)].
Qed.
Lemma beside_split o sa ms1 m ms2 e c : beside (length ms1) (o, sa, ms1 ++ m :: ms2, e, c) = extra2 sa ms1 ms2 e.
Proof.
  unfold beside, extra2. rewrite app_length. cbn [length]. destruct ms1 as [|x ms1]; cbn [length].
  - destruct ms2; reflexivity.
  - destruct ms2 as [|y ms2]; cbn [length].
    + replace (Nat.eqb _ (_ - 1)) with true by (symmetry; apply Nat.eqb_eq; lia). reflexivity.
    + replace (Nat.eqb _ (_ - 1)) with false by (symmetry; apply Nat.eqb_neq; lia). reflexivity.
Qed.
Lemma can_fix_nonempty so n an a b o sa ms e c (h : how) : can_fix so n an a b (o, sa, ms, e, c) = Ok h -> Forall (fun m => m <> []) ms.
Proof.
  unfold can_fix. destruct (existsb is_nil ms) eqn:E; [discriminate|]. intros _. apply Forall_forall. intros m Hm ->.
  assert (X : existsb is_nil ms = true) by (apply existsb_exists; exists []; auto). congruence.
Qed.
Lemma try_alts_same so n an a b x : set_like so -> chain_good n x -> forall is cur y, (forall i, In i is -> (i < length (snd (fst (fst x))))%nat) -> chain_same n x cur ->
  try_alts so n an a b x is cur = Ok y -> chain_same n x y.
Proof.
  intros SO G. destruct x as [[[[o sa] ms] e] c]. cbn [fst snd]. induction is as [|i is IH]; intros cur y R S H; cbn [try_alts] in H; [injection H as <-; exact S|].
  assert (Ri : (i < length ms)%nat) by (apply R; left; reflexivity).
  destruct (nth_split ms [] Ri) as (ms1 & ms2 & Ems & Li). set (m := nth i ms []) in *.
  assert (Eb : beside i (o, sa, ms, e, c) = extra2 sa ms1 ms2 e) by (rewrite Ems at 1; rewrite <- Li; apply beside_split).
  rewrite Eb in H. rewrite Ems in G.
  assert (Nm : m <> []). { destruct G as (_ & _ & _ & F & _). apply Forall_app in F as [_ F]. inversion F as [|? ? (A & _) _]. exact A. }
  rewrite (complementary_free so n _ SO) in H by (destruct m; [congruence|discriminate]). cbn [rbind] in H.
  set (alt := free_legs n (m ++ extra2 sa ms1 ms2 e)) in *.
  assert (Es : set_nth i alt ms = ms1 ++ alt :: ms2) by (rewrite Ems at 1; rewrite <- Li; apply set_nth_split). rewrite Es in H.
  destruct (can_fix so n an a b _) as [w|] eqn:CF in H; [|discriminate]. cbn [rbind] in H.
  apply (IH _ y (fun j Hj => R j (or_intror Hj))) in H; [exact H|].
  destruct w as [h|]; [|exact S].
  apply can_fix_nonempty in CF. apply Forall_app in CF as [_ CF]. inversion CF as [|? ? Na _].
  destruct (same_complement n o sa ms1 m ms2 e c G Na) as [G' S']. rewrite Ems. split; assumption.
Qed.
Theorem plan_two_NB_same so n an a b x y mode h : set_like so -> chain_good n x -> plan_two_NB so n an a b x = Ok (y, mode, h) -> chain_same n x y.
Proof.
  intros SO G H. unfold plan_two_NB in H. destruct (is_nil _ || _)%bool; [discriminate|].
  destruct (can_fix so n an a b x) as [w|] eqn:CF; [|discriminate]. cbn [rbind] in H.
  destruct (match w with Some _ => Ok x | None => _ end) as [x1|] eqn:E1 in H; [|discriminate]. cbn [rbind] in H.
  assert (S1 : chain_same n x x1).
  { destruct w; [injection E1 as <-; apply chain_same_refl, G|].
    apply (try_alts_same so n an a b x SO G _ x x1) in E1; [exact E1| |apply chain_same_refl, G].
    intros i Hi. apply in_seq in Hi. lia. }
  destruct x1 as [[[[o1 s1] ms1] e1] c1].
  set (turn := (obr_eqb o1 (o_of an) && _)%bool) in H.
  set (x2 := if turn then _ else _) in H.
  assert (S2 : chain_same n x x2).
  { unfold x2. destruct turn; [|exact S1]. apply (chain_same_trans _ _ _ _ S1). apply chain_same_flip, S1. }
  destruct x2 as [[[[o2 s2] ms2] e2] c2]. rewrite (complementary_free so n _ SO) in H by discriminate. cbn [rbind] in H.
  set (tw := (is_nil _ || _)%bool) in H. set (x3 := if tw then _ else _) in H.
  destruct (can_fix so n an a b x3) as [h'|]; [|discriminate]. cbn [rbind] in H. injection H as <- _ _.
  assert (SF : chain_same n x (flip_chain (o2, s2, ms2, e2, c2))) by (apply (chain_same_trans _ _ _ _ S2), chain_same_flip, S2).
  unfold x3. destruct tw; [|exact S2].
  destruct (seek_free a b _) as [y|] eqn:E in |- *; [apply (chain_same_trans _ _ _ _ S2 (chain_same_seek _ _ _ _ _ (proj1 S2) E))|].
  destruct (seek_free a b _) as [y|] eqn:E' in |- *; [apply (chain_same_trans _ _ _ _ SF (chain_same_seek _ _ _ _ _ (proj1 SF) E'))|exact SF].
Qed.
End More.
