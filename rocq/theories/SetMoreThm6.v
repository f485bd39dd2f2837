(* Proofs about SetPairMore.v, sixth part: two three-brackets that are set one after the other. *)
From Coq Require Import List ZArith Bool Lia Ring Field Permutation.
From Verif Require Import Base Fld Particle ParticleSpec ParticleThm Index IndexThm Phase PhaseSpec PhaseThm
  Arcs ArcsThm Compute ComputeSpec ComputeThm ComputeThm2 ComputeThm3 DetThm SetOne SetSpec SetThm SetThm2 SetThm3 SetThm4 SetThm5 SetThm7 SetThm8 SetPair SetPairSpec SetPairThm
  SetPairMore SetMoreSpec SetMoreThm SetMoreThm2 SetMoreThm3 SetMoreThm4 SetMoreThm5.
Import ListNotations.

Section More.
Context {K : Fld}.
Open Scope fld_scope.
Add Field Kmo6 : (fth K).
Implicit Types (s : ps K) (r l : Z -> v2 K) (k : Z) (X v w : K) (o : obr) (c : cbr) (ms : list (list Z)).

(* ---- the strings that are set instead ---- *)
Definition good3 n (x : br3) : Prop := let '(an, a, m, d) := x in good_three n a m d.
Definition same3 n (x y : br3) : Prop := good3 n y /\ same_value (K := K) n (target3 x) (target3 y).
Lemma target3_chain an (a : Z) m (d : Z) : target3 (an, a, m, d) = chain_t (o3 an) a [m] d (c3 an).
Proof. apply three_chain. Qed.
Lemma same3_refl n x : good3 n x -> same3 n x x.
Proof. destruct x as [[[an a] m] d]. intros G. split; [exact G|]. rewrite target3_chain. apply same_refl, good_three_chain, G. Qed.
Lemma same3_trans n x y z : same3 n x y -> same3 n y z -> same3 n x z.
Proof. intros [_ H1] [G H2]. split; [exact G|]. apply (same_trans _ _ _ _ H1 H2). Qed.
Lemma same3_view n x y : good3 n x -> good3 n y ->
  (forall r l, let '(an, a, m, d) := x in let '(an', a', m', d') := y in chv r l (o3 an') a' [m'] d' (c3 an') = chv r l (o3 an) a [m] d (c3 an)) -> same3 n x y.
Proof.
  destruct x as [[[an a] m] d], y as [[[an' a'] m'] d']. intros G G' H. split; [exact G'|]. rewrite !target3_chain.
  apply same_view; try (apply good_three_chain; assumption). intros r l. left. apply H.
Qed.
Lemma same3_reverse n x : good3 n x -> same3 n x (reverse3 x).
Proof.
  intros G. destruct x as [[[an a] m] d]. apply same3_view; [exact G| |].
  - destruct G as (? & ? & ? & ? & ?). unfold good3, reverse3, good_three. auto.
  - intros r l. cbn [reverse3]. symmetry. apply three_rev.
Qed.
Lemma same3_perm n an (a : Z) m m' (d : Z) : Permutation m m' -> good_three n a m d -> same3 n (an, a, m, d) (an, a, m', d).
Proof.
  intros P G. apply same3_view; [exact G| |].
  - destruct G as (N & D & R & ? & ?). split; [intros ->; apply Permutation_sym, Permutation_nil in P; auto|]. split; [apply (Permutation_NoDup P D)|].
    split; [|auto]. intros k Hk. apply R. apply (Permutation_in k (Permutation_sym P) Hk).
  - intros r l. symmetry. apply chv_perm, P.
Qed.
Lemma flip_three n an (a : Z) m (d : Z) : good_three n a m d -> free_legs n (a :: d :: m) <> [] -> same3 n (an, a, m, d) (an, a, free_legs n (a :: d :: m), d).
Proof.
  intros G N. assert (E : free_legs n (a :: d :: m) = free_legs n (m ++ extra2 a [] [] d)).
  { apply free_legs_ext. intros k. unfold extra2. rewrite in_app_iff. cbn. tauto. }
  rewrite E in *. destruct (same_complement (K := K) n (o3 an) a [] m [] d (c3 an) (good_three_chain n an a m d G) N) as [G' S]. cbn [app] in G', S. split.
  - destruct G' as (_ & _ & _ & F & ? & ?). inversion F as [|? ? (A1 & A2 & A3) _]. split; [exact A1|]. split; [exact A2|]. split; [exact A3|]. auto.
  - rewrite !target3_chain. exact S.
Qed.
Lemma flip3_same so n x y : set_like so -> good3 n x -> flip3 so n x = Ok y -> (let '(_, _, m, _) := y in m <> []) -> same3 n x y.
Proof.
  intros SO G H N. destruct x as [[[an a] m] d]. unfold flip3 in H. destruct (full3 _); [|discriminate]. cbn [rbind] in H.
  rewrite (complementary_free so n _ SO) in H by discriminate. cbn [rbind] in H. injection H as <-. apply flip_three; assumption.
Qed.
Lemma can3_full so n x y ok : can3 so n x y = Ok ok -> (let '(_, _, m, _) := x in m <> []) /\ (let '(_, _, m, _) := y in m <> []).
Proof.
  intros H. destruct x as [[[an0 s0] m0] e0], y as [[[an1 s1] m1] e1]. unfold can3, how3 in H.
  destruct (full3 (an0, s0, m0, e0)) eqn:F0; [|discriminate]. destruct (full3 (an1, s1, m1, e1)) eqn:F1; [|discriminate].
  apply full3_inv in F0, F1. auto.
Qed.
Theorem flips3_same so n x y x' y' : set_like so -> good3 n x -> good3 n y -> flips3 so n x y = Ok (x', y') -> same3 n x x' /\ same3 n y y'.
Proof.
  intros SO G0 G1 H. destruct x as [[[an0 s0] m0] e0] eqn:Ex. destruct y as [[[an1 s1] m1] e1] eqn:Ey. unfold flips3 in H.
  destruct (full3 _) eqn:F0 in H; [|discriminate]. cbn [rbind] in H. destruct (full3 _) eqn:F1 in H; [|discriminate]. cbn [rbind] in H.
  rewrite (complementary_free so n _ SO) in H by discriminate. cbn [rbind] in H.
  rewrite (complementary_free so n (s0 :: e0 :: m0) SO) in H by discriminate. cbn [rbind] in H.
  rewrite (complementary_free so n (s1 :: e1 :: m1) SO) in H by discriminate. cbn [rbind] in H.
  set (f0 := free_legs n (s0 :: e0 :: m0)) in *. set (f1 := free_legs n (s1 :: e1 :: m1)) in *.
  rewrite !(complementary_free so n _ SO) in H by discriminate. cbn [rbind] in H.
  set (pr := if Nat.leb 2 _ then _ else _) in H.
  assert (PR : forall z yy, pr = (z, yy) ->
    (z = (an0, s0, m0, e0) \/ z = (an0, s0, f0, e0)) /\ (yy = (an1, s1, m1, e1) \/ yy = (an1, s1, f1, e1))).
  { intros z yy. unfold pr. repeat match goal with |- context [if ?b then _ else _] => destruct b end; intros E; injection E as <- <-; auto. }
  destruct pr as [z yy]. destruct (PR z yy eq_refl) as [PZ PW]. clear PR.
  destruct (can3 so n z yy) as [ok|] eqn:C1; [|discriminate]. cbn [rbind] in H. destruct (can3_full _ _ _ _ _ C1) as [NZ NW].
  assert (SZ : same3 n (an0, s0, m0, e0) z). { destruct PZ as [-> | ->]; [apply same3_refl, G0|apply flip_three; assumption]. }
  assert (SW : same3 n (an1, s1, m1, e1) yy). { destruct PW as [-> | ->]; [apply same3_refl, G1|apply flip_three; assumption]. }
  destruct ok; [injection H as <- <-; auto|].
  destruct (flip3 so n z) as [z'|] eqn:Z1; [|discriminate]. cbn [rbind] in H. destruct (can3 so n z' yy) as [ok|] eqn:C2; [|discriminate]. cbn [rbind] in H.
  destruct (can3_full _ _ _ _ _ C2) as [NZ' _].
  assert (SZ' : same3 n (an0, s0, m0, e0) z') by (apply (same3_trans _ _ _ _ SZ (flip3_same so n z z' SO (proj1 SZ) Z1 NZ'))).
  destruct ok; [injection H as <- <-; auto|].
  destruct (flip3 so n yy) as [yz|] eqn:W1; [|discriminate]. cbn [rbind] in H. destruct (can3 so n z yz) as [ok|] eqn:C3; [|discriminate]. cbn [rbind] in H.
  destruct (can3_full _ _ _ _ _ C3) as [_ NW'].
  assert (SW' : same3 n (an1, s1, m1, e1) yz) by (apply (same3_trans _ _ _ _ SW (flip3_same so n yy yz SO (proj1 SW) W1 NW'))).
  destruct ok; [injection H as <- <-; auto|].
  destruct (can3 so n z' yz) as [ok|]; [|discriminate]. cbn [rbind] in H. destruct ok; injection H as <- <-; auto.
Qed.
Lemma remove1_perm k (m : list Z) : In k m -> Permutation m (k :: remove1 k m).
Proof.
  induction m as [|x m IH]; [intros []|]. intros H. cbn [remove1]. destruct (Z.eq_dec x k) as [->|E].
  - rewrite Z.eqb_refl. reflexivity.
  - replace (Z.eqb k x) with false by (symmetry; apply Z.eqb_neq; congruence). destruct H as [H|H]; [congruence|]. rewrite (IH H) at 1. apply perm_swap.
Qed.
Definition plan_strings (p : plan3) : br3 * br3 := match p with P3Formula x y | P3Set x y _ | P3Swap x y => (x, y) end.
Theorem after3_same n x y : good3 n x -> good3 n y -> same3 n x (fst (plan_strings (after3 x y))) /\ same3 n y (snd (plan_strings (after3 x y))).
Proof.
  intros G0 G1. destruct x as [[[an0 s0] m0] e0] eqn:Ex. destruct y as [[[an1 s1] m1] e1] eqn:Ey.
  pose proof (same3_refl n _ G0) as R0. pose proof (same3_refl n _ G1) as R1. pose proof (same3_reverse n _ G0) as V0. pose proof (same3_reverse n _ G1) as V1.
  unfold after3. destruct (_ && _)%bool; [cbn; auto|].
  set (only1 := filter (fun k => negb (zmem k m0)) m1). destruct (_ && _)%bool.
  - unfold order3. destruct (filter _ only1) as [|k rest] eqn:Ek; [cbn; auto|].
    assert (Hk : In k m1). { assert (I : In k (k :: rest)) by (left; reflexivity). rewrite <- Ek in I. apply filter_In in I as [I _]. apply filter_In in I as [I _]. exact I. }
    assert (Y : forall an, same3 n (an1, s1, m1, e1) (if Bool.eqb an an1 then (an, s1, k :: remove1 k m1, e1) else (an, e1, k :: remove1 k m1, s1))).
    { intros an. pose proof (same3_perm n an1 s1 m1 _ e1 (remove1_perm k m1 Hk) G1) as P. destruct (Bool.eqb an an1) eqn:B.
      - apply eqb_prop in B. subst an. exact P.
      - apply eqb_false_iff in B. apply (same3_trans _ _ _ _ P). pose proof (same3_reverse n _ (proj1 P)) as Q. cbn [reverse3] in Q.
        replace an with (negb an1) by (destruct an, an1; cbn; congruence). exact Q. }
    destruct (Z.eqb k s0); [destruct an0|]; cbn [plan_strings fst snd]; auto.
  - destruct (_ && _)%bool; [cbn; auto|].
    assert (X' : same3 n (an0, s0, m0, e0) (if Bool.eqb an0 an1 then (an0, s0, m0, e0) else reverse3 (an0, s0, m0, e0))) by (destruct (Bool.eqb an0 an1); assumption).
    destruct (negb (Z.eqb s0 s1)); [cbn [plan_strings fst snd]; auto|]. destruct (negb (Z.eqb e0 e1)); cbn [plan_strings fst snd]; [|auto].
    split; [apply (same3_trans _ _ _ _ X'), same3_reverse, X'|exact V1].
Qed.

(* ---- two free legs: one after the other ---- *)
Lemma three_only an (a : Z) m (d : Z) g r l r' l' : only (o3 an) g r l r' l' -> g <> a -> ~ In g m -> chv r' l' (o3 an) a [m] d (c3 an) = chv r l (o3 an) a [m] d (c3 an).
Proof.
  intros [O1 O2] Na Nm. induction m as [|j m IH]; [rewrite !three_nil; reflexivity|]. rewrite !three_cons. rewrite IH by (intros I; apply Nm; right; exact I). f_equal.
  assert (Nj : j <> g) by (intros ->; apply Nm; left; reflexivity). destruct (O1 j Nj) as [J1 J2]. destruct (O1 a (not_eq_sym Na)) as [A1 A2].
  rewrite (br_keep an r l r' l' a j A1 A2 J1 J2). f_equal. unfold br. destruct an; cbn [o3 oflag negb] in *; rewrite O2; reflexivity.
Qed.
Lemma setter3 cv so an (a : Z) m (d : Z) v mode g n : setter cv so (o3 an) a [m] d (c3 an) v mode g n -> forall s r l, view s r l -> length s = n ->
    (exists s', set_only cv so (three an a m d) v mode s = (s', Err ZeroDivisionError)) \/
    (exists s' r' l', set_only cv so (three an a m d) v mode s = (s', Ok tt) /\ view s' r' l' /\ step s s' [g] /\
       chv r' l' (o3 an) a [m] d (c3 an) = v /\ only (o3 an) g r l r' l').
Proof. rewrite three_chain. intros H s r l V L. apply (H s r l V L). Qed.
(* two strings of the same kind; the second one is set through g *)
Lemma two_threes cv so s an (s0 : Z) m0 (e0 : Z) v1 (s1 : Z) m1 (e1 : Z) (w2 : K) mode g p q rest : set_like so -> Forall (fun x => fresh x) s ->
  good_three (length s) s0 m0 e0 -> good_three (length s) s1 m1 e1 ->
  free_legs (length s) ((s0 :: m0 ++ [e0]) ++ s1 :: m1 ++ [e1]) = p :: q :: rest ->
  ~ In s0 m0 -> g <> s0 -> ~ In g m0 -> setter cv so (o3 an) s1 [m1] e1 (c3 an) w2 mode g (length s) ->
  let run := bind (set_only cv so (three an s0 m0 e0) v1 1) (fun _ => bind (set_only cv so (three an s1 m1 e1) w2 mode) (fun _ => bind (restore3 cv so (an, s0, m0, e0) (an, s1, m1, e1)) (fun _ => ret PNone))) in
  snd (run s) = Err ZeroDivisionError \/
  exists s', run s = (s', Ok PNone) /\ made2 s s' (three an s0 m0 e0) v1 (three an s1 m1 e1) w2 [s0; g; p; q].
Proof.
  intros SO F G0 G1 FL N0 Ng Nm ST run. pose proof (view_of s F) as V.
  assert (Ap : apart (o3 an) s0 [m0] e0) by (split; [cbn [concat]; rewrite app_nil_r; exact N0|right; reflexivity]).
  destruct (setter3 cv so an s0 m0 e0 v1 1 s0 (length s) (setter_head cv so _ _ _ _ _ v1 _ SO (good_three_chain _ an _ _ _ G0) Ap) s _ _ V eq_refl)
    as [(sE & E1)|(s1' & r1 & l1 & E1 & V1 & T1 & C1 & O1)].
  { left. unfold run. rewrite (bind_err _ _ _ _ _ E1). reflexivity. }
  destruct (setter3 cv so an s1 m1 e1 w2 mode g (length s) ST s1' r1 l1 V1 (proj1 T1)) as [(sE & E2)|(s2 & r2 & l2 & E2 & V2 & T2 & C2 & O2)].
  { left. unfold run. rewrite (bind_ok _ _ _ _ _ E1), (bind_err _ _ _ _ _ E2). reflexivity. }
  pose proof (step_trans _ _ _ _ _ T1 T2) as T12. assert (L2 : length s2 = length s) by apply T12.
  assert (X1 : c_target s2 (three an s0 m0 e0) = Ok v1).
  { rewrite (three_value an s0 m0 e0 s2 _ _ V2) by (rewrite L2; exact G0). f_equal. rewrite (three_only an s0 m0 e0 g r1 l1 r2 l2 O2 Ng Nm). exact C1. }
  assert (X2 : c_target s2 (three an s1 m1 e1) = Ok w2).
  { rewrite (three_value an s1 m1 e1 s2 _ _ V2) by (rewrite L2; exact G1). f_equal. exact C2. }
  rewrite <- L2 in G0, G1, FL.
  destruct (restore_three cv so s2 an s0 m0 e0 an s1 m1 e1 p q rest v1 w2 SO (view_fresh _ _ _ V2) G0 G1 FL X1 X2) as [R0 R1].
  destruct (feq_dec (br false (rs s2) (ls s2) p q)) as [Z|Z].
  - left. unfold run. rewrite (bind_ok _ _ _ _ _ E1), (bind_ok _ _ _ _ _ E2), (bind_err _ _ _ _ _ (R0 Z)). reflexivity.
  - right. destruct (R1 Z) as (s3 & E3 & MD). exists s3. split; [unfold run; rewrite (bind_ok _ _ _ _ _ E1), (bind_ok _ _ _ _ _ E2), (bind_ok _ _ _ _ _ E3); reflexivity|].
    destruct MD. constructor; auto; [congruence|]. intros k Hk. rewrite made2_rest by (intros I; apply Hk; right; right; exact I).
    apply (proj2 T12). intros I. apply Hk. cbn in *. intuition.
Qed.
Lemma not_same_set (l l' : list Z) : ~ (forall x, In x l <-> In x l') -> same_set l l' = false.
Proof.
  intros H. destruct (same_set l l') eqn:E; [|reflexivity]. exfalso. apply H. unfold same_set in E. apply andb_true_iff in E as [A B].
  rewrite forallb_forall in A, B. intros x. split; intros I; [apply A in I|apply B in I]; apply zmem_true in I; exact I.
Qed.
Lemma filter_none {A} (f : A -> bool) (l : list A) : (forall x, In x l -> f x = false) -> filter f l = [].
Proof. induction l as [|x l IH]; [reflexivity|]. intros H. cbn. rewrite (H x) by (left; reflexivity). apply IH. intros y Hy. apply H. right. exact Hy. Qed.

Theorem pair_three_middle cv so xa xe fuel an0 (s0 : Z) m0 (e0 : Z) v1 an1 (s1 : Z) m11 k m12 (e1 : Z) (w2 : K) s p q rest :
  set_like so -> Forall (fun x => fresh x) s -> good_three (length s) s0 m0 e0 -> good_three (length s) s1 (m11 ++ k :: m12) e1 ->
  free_legs (length s) ((s0 :: m0 ++ [e0]) ++ s1 :: (m11 ++ k :: m12) ++ [e1]) = p :: q :: rest ->
  ~ (forall x, In x (s0 :: m0 ++ [e0]) <-> In x (s1 :: (m11 ++ k :: m12) ++ [e1])) ->
  ~ In s0 m0 -> (forall x, In x m11 -> In x m0) -> ~ In k m0 -> ~ In k [s0; s1; e1] -> (length m0 <= length (m11 ++ k :: m12))%nat ->
  let x := three an0 s0 m0 e0 in let y := three an1 s1 (m11 ++ k :: m12) e1 in
  (snd (set_pair_all cv so xa xe (Datatypes.S fuel) x v1 y w2 s) = Err ZeroDivisionError) \/
  (exists s', set_pair_all cv so xa xe (Datatypes.S fuel) x v1 y w2 s = (s', Ok tt) /\ made2 s s' x v1 y w2 [s0; k; p; q]).
Proof.
  intros SO F G0 G1 FL DIF N0 H1 Nk Ne LEN x y.
  set (m1 := m11 ++ k :: m12) in *.
  assert (Hk : In k m1) by (unfold m1; apply in_app_iff; right; left; reflexivity).
  set (m1' := k :: remove1 k m1). pose proof (remove1_perm k m1 Hk) as PM. fold m1' in PM.
  set (s1' := if Bool.eqb an0 an1 then s1 else e1). set (e1' := if Bool.eqb an0 an1 then e1 else s1).
  assert (G1' : good_three (length s) s1' m1' e1').
  { pose proof (proj1 (same3_perm (length s) an1 s1 m1 m1' e1 PM G1)) as (A1 & A2 & A3 & A4 & A5). unfold s1', e1'. split; [exact A1|]. split; [exact A2|]. split; [exact A3|]. destruct (Bool.eqb an0 an1); auto. }
  assert (IN : forall z, In z (s1' :: m1' ++ [e1']) <-> In z (s1 :: m1 ++ [e1])).
  { intros z. cbn [In]. rewrite !in_app_iff. assert (J : In z m1' <-> In z m1) by (split; apply Permutation_in; [apply Permutation_sym|]; exact PM). rewrite J.
    unfold s1', e1'. destruct (Bool.eqb an0 an1); cbn [In]; tauto. }
  assert (FL' : free_legs (length s) ((s0 :: m0 ++ [e0]) ++ s1' :: m1' ++ [e1']) = p :: q :: rest).
  { rewrite <- FL. apply free_legs_ext. intros z. rewrite !(in_app_iff (s0 :: _)), IN. tauto. }
  assert (VY : forall s', length s' = length s -> Forall (fun x => fresh x) s' -> c_target s' y = c_target s' (three an0 s1' m1' e1')).
  { intros s' L' F'. pose proof (view_of s' F') as V'. unfold y. rewrite (three_value an1 s1 m1 e1 s' _ _ V') by (rewrite L'; exact G1).
    rewrite (three_value an0 s1' m1' e1' s' _ _ V') by (rewrite L'; exact G1'). f_equal. rewrite (chv_perm _ _ _ s1 m1 m1' [] e1 _ PM).
    unfold s1', e1'. destruct (Bool.eqb an0 an1) eqn:B; [apply eqb_prop in B; subst; reflexivity|]. apply eqb_false_iff in B.
    replace an0 with (negb an1) by (destruct an0, an1; cbn; congruence). apply three_rev. }
  assert (AF : after3 (an0, s0, m0, e0) (an1, s1, m1, e1) = P3Set (an0, s0, m0, e0) (an0, s1', m1', e1') (Some 2%Z)).
  { unfold after3. cbn [all3]. rewrite (not_same_set _ _ DIF). cbn [andb].
    assert (ON : exists rst, filter (fun z => negb (zmem z m0)) m1 = k :: rst).
    { unfold m1. rewrite filter_app. rewrite (filter_none _ m11) by (intros z Hz; apply negb_false_iff, zmem_true, H1, Hz). cbn [app filter].
      rewrite (proj2 (zmem_false _ _) Nk). cbn [negb]. eauto. }
    destruct ON as (rst & ->). cbn [is_nil negb andb].
    assert (Ks : Z.eqb k s0 = false) by (apply Z.eqb_neq; intros ->; apply Ne; left; reflexivity).
    replace (match rst with [] => Z.eqb k s0 | _ :: _ => false end) with false by (destruct rst; [symmetry; exact Ks|reflexivity]). cbn [negb orb].
    unfold order3. cbn [filter]. rewrite Ks. cbn [andb negb]. rewrite ?Ks. unfold s1', e1'. fold m1'. destruct (Bool.eqb an0 an1); reflexivity. }
  unfold set_pair_all, set_pair. set (inner := set_pair_inner _ _ _ _ _ _ _ _).
  assert (EI : inner s = bind (set_only cv so (three an0 s0 m0 e0) v1 1) (fun _ => bind (set_only cv so (three an0 s1' m1' e1') w2 2) (fun _ => bind (restore3 cv so (an0, s0, m0, e0) (an0, s1', m1', e1')) (fun _ => ret PNone))) s).
  { unfold inner, x, y. rewrite inner_3B_3B by (apply G0 || apply G1). cbn [pair_3B_3B]. rewrite bind_get.
    rewrite (bind_lift _ _ _ _ (flips3_two so (length s) an0 s0 m0 e0 an1 s1 m1 e1 p q rest SO (proj1 G0) (proj1 G1) FL)). cbn [fst snd]. rewrite AF.
    replace (Nat.ltb (length (all3 (an0, s1', m1', e1'))) (length (all3 (an0, s0, m0, e0)))) with false; [reflexivity|].
    symmetry. apply Nat.ltb_ge. cbn [all3 length]. rewrite !app_length. cbn [length]. rewrite <- (Permutation_length PM). lia. }
  assert (NK' : ~ In k (s1' :: concat [] ++ [e1'])).
  { cbn [concat app]. unfold s1', e1'. intros I. apply Ne. destruct (Bool.eqb an0 an1); cbn in *; tauto. }
  pose proof (setter_middle cv so (o3 an0) s1' k (remove1 k m1) [] e1' (c3 an0) w2 (length s) SO (good_three_chain _ an0 _ _ _ G1') NK') as ST. fold m1' in ST.
  destruct (two_threes cv so s an0 s0 m0 e0 v1 s1' m1' e1' w2 2 k p q rest SO F G0 G1' FL' N0) as [E|(s' & E & MD)].
  - intros ->. apply Ne. left. reflexivity.
  - exact Nk.
  - exact ST.
  - left. apply pair_checked_err. rewrite EI. exact E.
  - right. exists s'. destruct MD as [M1 M2 M3 M4 M5 M6]. rewrite <- (VY s' M5 M4) in M2. split; [|constructor; auto].
    apply pair_checked_ok; auto. rewrite EI. exact E.
Qed.
(* the two sums are the same legs *)
Theorem pair_three_ends cv so xa xe fuel an (s0 : Z) m0 (e0 : Z) v1 (s1 : Z) m1 (e1 : Z) (w2 : K) s p q rest :
  set_like so -> Forall (fun x => fresh x) s -> good_three (length s) s0 m0 e0 -> good_three (length s) s1 m1 e1 ->
  free_legs (length s) ((s0 :: m0 ++ [e0]) ++ s1 :: m1 ++ [e1]) = p :: q :: rest ->
  ~ (forall x, In x (s0 :: m0 ++ [e0]) <-> In x (s1 :: m1 ++ [e1])) ->
  Permutation m0 m1 -> s0 <> s1 -> ~ In s0 m0 -> ~ In s1 m0 ->
  let x := three an s0 m0 e0 in let y := three an s1 m1 e1 in
  (snd (set_pair_all cv so xa xe (Datatypes.S fuel) x v1 y w2 s) = Err ZeroDivisionError) \/
  (exists s', set_pair_all cv so xa xe (Datatypes.S fuel) x v1 y w2 s = (s', Ok tt) /\ made2 s s' x v1 y w2 [s0; s1; p; q]).
Proof.
  intros SO F G0 G1 FL DIF PM D N0 N1 x y.
  assert (I01 : forall z, In z m0 <-> In z m1) by (intros z; split; apply Permutation_in; [|apply Permutation_sym]; exact PM).
  assert (AF : after3 (an, s0, m0, e0) (an, s1, m1, e1) = P3Set (an, s0, m0, e0) (an, s1, m1, e1) (Some 1%Z)).
  { unfold after3. cbn [all3]. rewrite (not_same_set _ _ DIF). cbn [andb].
    rewrite (filter_none _ m1) by (intros z Hz; apply negb_false_iff, zmem_true, I01, Hz).
    rewrite (filter_none _ m0) by (intros z Hz; apply negb_false_iff, zmem_true, I01, Hz). cbn [is_nil negb andb].
    rewrite eqb_reflx. apply Z.eqb_neq in D. rewrite D. reflexivity. }
  unfold set_pair_all, set_pair. set (inner := set_pair_inner _ _ _ _ _ _ _ _).
  assert (EI : inner s = bind (set_only cv so (three an s0 m0 e0) v1 1) (fun _ => bind (set_only cv so (three an s1 m1 e1) w2 1) (fun _ => bind (restore3 cv so (an, s0, m0, e0) (an, s1, m1, e1)) (fun _ => ret PNone))) s).
  { unfold inner, x, y. rewrite inner_3B_3B by (apply G0 || apply G1). cbn [pair_3B_3B]. rewrite bind_get.
    rewrite (bind_lift _ _ _ _ (flips3_two so (length s) an s0 m0 e0 an s1 m1 e1 p q rest SO (proj1 G0) (proj1 G1) FL)). cbn [fst snd]. rewrite AF.
    replace (Nat.ltb (length (all3 (an, s1, m1, e1))) (length (all3 (an, s0, m0, e0)))) with false; [reflexivity|].
    symmetry. apply Nat.ltb_ge. cbn [all3 length]. rewrite !app_length. cbn [length]. rewrite <- (Permutation_length PM). lia. }
  assert (Ap : apart (o3 an) s1 [m1] e1) by (split; [cbn [concat]; rewrite app_nil_r, <- I01; exact N1|right; reflexivity]).
  pose proof (setter_head cv so (o3 an) s1 [m1] e1 (c3 an) w2 (length s) SO (good_three_chain _ an _ _ _ G1) Ap) as ST.
  destruct (two_threes cv so s an s0 m0 e0 v1 s1 m1 e1 w2 1 s1 p q rest SO F G0 G1 FL N0 (not_eq_sym D) N1 ST) as [E|(s' & E & MD)].
  - left. apply pair_checked_err. rewrite EI. exact E.
  - right. exists s'. split; [|exact MD]. apply pair_checked_ok; try apply MD. rewrite EI. exact E.
Qed.
End More.
