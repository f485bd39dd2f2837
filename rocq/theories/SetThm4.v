(* Proofs about SetOne.v, fourth part: chains through their first entry, rewriting by
   momentum conservation, Mandelstam variables. *)
From Coq Require Import List ZArith Bool Lia Ring Field Permutation.
From Verif Require Import Base Fld Particle ParticleSpec ParticleThm Index IndexThm Phase PhaseSpec PhaseThm
  Arcs ArcsThm Compute ComputeSpec ComputeThm ComputeThm2 ComputeThm3 GramThm DetThm SetOne SetSpec SetThm SetThm2 SetThm3.
Import ListNotations.

Section Lists.
Lemma find_unique_spec others l j0 b j : find_unique others l j0 = Some (b, j) ->
  exists l1 l2, l = l1 ++ b :: l2 /\ j = (j0 + length l1)%nat /\ ~ In b others.
Proof.
  revert j0. induction l as [|x l IH]; intros j0 H; cbn [find_unique] in H; [discriminate|].
  destruct (zmem x others) eqn:E.
  - destruct (IH _ H) as (l1 & l2 & -> & -> & N). exists (x :: l1), l2. cbn [app length]. split; [reflexivity|]. split; [lia|exact N].
  - injection H as <- <-. exists [], l. cbn. apply zmem_false in E. split; [reflexivity|]. split; [lia|exact E].
Qed.
Lemma find_unique_here others l1 b l2 j0 : (forall k, In k l1 -> In k others) -> ~ In b others ->
  find_unique others (l1 ++ b :: l2) j0 = Some (b, (j0 + length l1)%nat).
Proof.
  revert j0. induction l1 as [|x l1 IH]; intros j0 H N; cbn [app find_unique].
  - apply zmem_false in N. rewrite N. cbn [length]. f_equal. f_equal. lia.
  - rewrite (proj2 (zmem_true x others)) by (apply H; left; reflexivity).
    rewrite IH; auto. 2: intros k Hk; apply H; right; exact Hk. cbn [length]. f_equal. f_equal. lia.
Qed.
Lemma swap_front_perm l1 b l2 : exists m1, swap_front (length l1) (l1 ++ b :: l2) = b :: m1 /\ Permutation (l1 ++ b :: l2) (b :: m1).
Proof.
  destruct l1 as [|y l1]; cbn [length app swap_front].
  - exists l2. auto.
  - exists (l1 ++ y :: l2). split.
    + rewrite Nat.sub_succ, Nat.sub_0_r. unfold set_nth. cbn [nth tl]. rewrite nth_middle. f_equal.
      rewrite firstn_app, firstn_all, Nat.sub_diag. cbn [firstn]. rewrite app_nil_r. f_equal. f_equal.
      rewrite skipn_app. rewrite (skipn_all2 l1) by lia. replace (S (length l1) - length l1)%nat with 1%nat by lia. reflexivity.
    + transitivity (b :: y :: l1 ++ l2); [apply Permutation_sym, (Permutation_middle (y :: l1))|]. apply perm_skip, Permutation_middle.
Qed.
End Lists.

Section Chains.
Context {K : Fld}.
Open Scope fld_scope.
Add Field Kset4 : (fth K).
Implicit Types (s : ps K) (r l : Z -> v2 K) (u v w : v2 K) (k : Z) (X : K) (o : obr) (c : cbr) (ms : list (list Z)).

Lemma other_swap o : other_o o = swap_o o. Proof. destruct o; reflexivity. Qed.
Lemma oflag_swap o : o <> OLt -> oflag (swap_o o) = negb (oflag o).
Proof. destruct o; intros H; try reflexivity; congruence. Qed.
Lemma swap_nlt o : o <> OLt -> swap_o o <> OLt.
Proof. destruct o; intros H; cbn; congruence. Qed.
Lemma str_tail o m ms c : str_ok o (m :: ms) c -> str_ok (swap_o o) ms c.
Proof.
  intros [No Ec]. split; [apply swap_nlt, No|]. subst c. unfold end_of. cbn [length]. rewrite Nat.even_succ, <- Nat.negb_even.
  destruct o; try congruence; destruct (Nat.even (length ms)); reflexivity.
Qed.
Lemma chv_cons r l o a m ms d c : o <> OLt ->
  chv r l o a (m :: ms) d c = vdot (vm (row r l o a) (flagm (oflag o) (psum r l m))) (wcol r l (swap_o o) ms d c).
Proof. intros N. unfold chv, wcol. cbn [map mprod]. rewrite <- (oflag_swap o N), vm_mmul, (vdot_vm (vm _ _)). reflexivity. Qed.

(* <a|b> or [a|b] *)
Definition brk r l o (a b : Z) : K := if oflag o then vdot (raise_r (r a)) (r b) else vdot (l a) (raise_r (l b)).
Lemma row_pm r l o a b w : o <> OLt ->
  vdot (vm (row r l o a) (flagm (oflag o) (pm r l b))) w = brk r l o a b * vdot (row r l (swap_o o) b) w.
Proof.
  intros N. unfold brk, pm. destruct o; try congruence; cbn [oflag swap_o row flagm]; unfold outer, adj, raise_r; unfold_vec; cbn [e0 e1]; ring.
Qed.
Lemma chv_split r l o a b m ms d c : o <> OLt ->
  chv r l o a ((b :: m) :: ms) d c =
    brk r l o a b * vdot (row r l (swap_o o) b) (wcol r l (swap_o o) ms d c) +
    vdot (vm (row r l o a) (flagm (oflag o) (psum r l m))) (wcol r l (swap_o o) ms d c).
Proof.
  intros N. rewrite chv_cons by exact N. rewrite psum_cons, flagm_add, <- row_pm by exact N.
  set (A := flagm _ (pm _ _ _)). set (B := flagm _ (psum _ _ _)). set (w := wcol _ _ _ _ _ _). unfold_vec. ring.
Qed.
Lemma psum_one r l k : psum r l [k] = pm r l k.
Proof. unfold psum, msum. cbn. apply madd_0_r. Qed.
Lemma chv_one r l o a b ms d c : o <> OLt ->
  chv r l o a ([b] :: ms) d c = brk r l o a b * vdot (row r l (swap_o o) b) (wcol r l (swap_o o) ms d c).
Proof. intros N. rewrite chv_cons by exact N. rewrite psum_one. apply row_pm, N. Qed.

Lemma string_view s r l o b ms d c : view s r l -> entries_ok s ms -> inr s b -> inr s d -> str_ok o ms c ->
  c_string s o b (map ent ms) d c = Ok (vdot (row r l o b) (wcol r l o ms d c)) /\
  bracket s o b (map ent ms) d c = Ok (vdot (row r l o b) (wcol r l o ms d c)).
Proof.
  intros V H Hb Hd B. rewrite <- chv_wcol. destruct ms as [|m ms].
  - destruct B as [No Ec]. unfold chv. cbn [map c_string bracket mprod]. rewrite vm_one. unfold end_of in Ec. cbn [length Nat.even] in Ec.
    destruct o; try congruence; subst c; cbn [close_of row col].
    + rewrite (A2_view s r l b d V Hb Hd). auto.
    + rewrite (S2_view s r l b d V Hb Hd). auto.
  - pose proof (chain_view s r l o b (m :: ms) d c V H ltac:(discriminate) Hb Hd (str_bracket _ _ _ B)) as E. cbn [map] in *.
    split; exact E.
Qed.

Definition pivot r l o (a : Z) : K := if oflag o then e1 (r a) else e0 (l a).
Lemma solve_middle_view cv so s r l o a b m ms d c X : set_like so -> view s r l -> entries_ok s ((b :: m) :: ms) -> inr s a -> inr s d ->
  str_ok o ((b :: m) :: ms) c -> ~ In b (a :: m ++ concat ms ++ [d]) ->
  let E := vdot (row r l (swap_o o) b) (wcol r l (swap_o o) ms d c) in
  ((E = 0 \/ pivot r l o a = 0) -> solve_middle cv so o o a b (b :: m) ms d c X s = (s, Err ZeroDivisionError)) /\
  (E <> 0 -> pivot r l o a <> 0 -> exists s' r' l', solve_middle cv so o o a b (b :: m) ms d c X s = (s', Ok tt) /\ view s' r' l' /\ step s s' [b] /\
    chv r' l' o a ((b :: m) :: ms) d c = X /\ only o b r l r' l').
Proof.
  intros SO V H Ha Hd B Nb E. pose proof B as [No _].
  assert (H1 : entries_ok s ms) by (inversion H; assumption).
  assert (Hb : inr s b). { inversion H as [|? ? [_ L] _]. apply L. left. reflexivity. }
  assert (Nba : a <> b) by (intros ->; apply Nb; left; reflexivity).
  assert (Nbm : ~ In b m) by (intros I; apply Nb; right; rewrite !in_app_iff; auto).
  assert (Nbs : ~ In b (concat ms)) by (intros I; apply Nb; right; rewrite !in_app_iff; auto).
  assert (Nbd : b <> d) by (intros ->; apply Nb; right; rewrite !in_app_iff; cbn; auto).
  pose proof (str_tail _ _ _ _ B) as B1.
  assert (EQ : solve_middle cv so o o a b (b :: m) ms d c X s =
     bind (lift (divE (X - vdot (vm (row r l o a) (flagm (oflag o) (psum r l m))) (wcol r l (swap_o o) ms d c)) E))
       (fun t => if is_angle o then set_A2 cv so a b t false else set_S2 cv so a b t false) s).
  { unfold solve_middle. rewrite bind_get.
    rewrite (bind_lift _ _ _ _ (chain_view s r l o a ((b :: m) :: ms) d c V H ltac:(discriminate) Ha Hd (str_bracket _ _ _ B))).
    assert (H2 : entries_ok s ([b] :: ms)). { constructor; [|exact H1]. split; [discriminate|]. intros k [<-|[]]. exact Hb. }
    rewrite (bind_lift _ _ _ _ (chain_view s r l o a ([b] :: ms) d c V H2 ltac:(discriminate) Ha Hd (str_bracket o ([b] :: ms) c B))).
    rewrite other_swap. rewrite (bind_lift _ _ _ _ (proj1 (string_view s r l (swap_o o) b ms d c V H1 Hb Hd B1))). fold E.
    rewrite chv_one, chv_split by exact No. fold E. f_equal. f_equal. f_equal. ring. }
  rewrite (is_angle_oflag o) in EQ. rewrite EQ. clear EQ. unfold pivot.
  destruct (feq_dec E) as [EZ|EN].
  { split; [|intros C; contradiction]. intros _. rewrite (bind_lift_err _ _ _ _ (divE_0 _ _ EZ)). reflexivity. }
  rewrite (bind_lift _ _ _ _ (divE_ok _ _ EN)). set (t := _ / E).
  assert (VAL : forall r' l', only o b r l r' l' -> brk r' l' o a b = t -> chv r' l' o a ((b :: m) :: ms) d c = X).
  { intros r' l' O Et. rewrite chv_split by exact No. rewrite Et.
    assert (W : wcol r' l' (swap_o o) ms d c = wcol r l (swap_o o) ms d c).
    { apply wcol_ext.
      - intros k Hk. apply O. intros ->. auto.
      - destruct (only_r _ _ _ _ _ _ d O) as [E1 E2]; [congruence|]. unfold col. rewrite E1, E2. reflexivity. }
    rewrite W.
    assert (P : psum r' l' m = psum r l m). { apply psum_ext; intros k Hk; apply O; intros ->; auto. }
    rewrite P.
    assert (R : row r' l' o a = row r l o a). { destruct (only_r _ _ _ _ _ _ a O Nba) as [E1 E2]. unfold row. rewrite E1, E2. reflexivity. }
    rewrite R.
    assert (R' : row r' l' (swap_o o) b = row r l (swap_o o) b). { destruct O as [_ O]. destruct o; try congruence; cbn in *; rewrite O; reflexivity. }
    rewrite R'. fold E. unfold t. field. exact EN. }
  destruct (oflag o) eqn:Of.
  - destruct (set_A2_view cv so s r l a b t SO V Ha Hb Nba) as [Z1 Z2]. split.
    + intros [C|C]; [contradiction|]. apply Z1, C.
    + intros _ NZ. destruct (Z2 NZ) as (s' & v & E1 & V1 & T1 & EX & _). exists s', (upd r b v), l.
      assert (O : only o b r l (upd r b v) l). { split; [intros k Hk; rewrite upd_other by exact Hk; auto|]. rewrite Of. reflexivity. }
      split; [exact E1|]. split; [exact V1|]. split; [exact T1|]. split; [|exact O]. apply VAL; [exact O|].
      unfold brk. rewrite Of, upd_same, upd_other by exact Nba. exact EX.
  - destruct (set_S2_view cv so s r l a b t SO V Ha Hb Nba) as [Z1 Z2]. split.
    + intros [C|C]; [contradiction|]. apply Z1, C.
    + intros _ NZ. destruct (Z2 NZ) as (s' & v & E1 & V1 & T1 & EX & _). exists s', r, (upd l b v).
      assert (O : only o b r l r (upd l b v)). { split; [intros k Hk; rewrite upd_other by exact Hk; auto|]. rewrite Of. reflexivity. }
      split; [exact E1|]. split; [exact V1|]. split; [exact T1|]. split; [|exact O]. apply VAL; [exact O|].
      unfold brk. rewrite Of, upd_same, upd_other by exact Nba. exact EX.
Qed.

(* the ends of the string are not used: mode 2, or both occur in the entries *)
Lemma chv_perm r l o a m m' ms d c : Permutation m m' -> chv r l o a (m :: ms) d c = chv r l o a (m' :: ms) d c.
Proof. intros P. unfold chv. cbn [map]. rewrite (psum_perm r l m m' P). reflexivity. Qed.
Lemma NB_middle cv so f s r l o a m1 b m2 ms d c X mode p q rest : set_like so -> view s r l ->
  entries_ok s ((m1 ++ b :: m2) :: ms) -> inr s a -> inr s d -> str_ok o ((m1 ++ b :: m2) :: ms) c ->
  ends_unused a ((m1 ++ b :: m2) :: ms) d mode ->
  (forall k, In k m1 -> In k (a :: concat ms ++ [d])) -> ~ In b (a :: concat ms ++ [d]) -> ~ In b (m1 ++ m2) ->
  free_legs (length s) (a :: concat ((m1 ++ b :: m2) :: ms) ++ [d]) = p :: q :: rest ->
  let E := vdot (row r l (swap_o o) b) (wcol r l (swap_o o) ms d c) in
  ((E = 0 \/ pivot r l o a = 0) -> set_NB cv so (S f) o a ((m1 ++ b :: m2) :: ms) d c X true mode s = (s, Err ZeroDivisionError)) /\
  (E <> 0 -> pivot r l o a <> 0 -> vdot (l p) (raise_r (l q)) <> 0 ->
   exists s' r' l', set_NB cv so (S f) o a ((m1 ++ b :: m2) :: ms) d c X true mode s = (s', Ok tt) /\ view s' r' l' /\ step s s' [b; p; q] /\
     total_mom s' = mzero /\ chv r' l' o a ((m1 ++ b :: m2) :: ms) d c = X).
Proof.
  intros SO V H Ha Hd B EU H1 N1 N2 FL E.
  destruct (swap_front_perm m1 b m2) as (m & Em & Pm).
  set (m0 := m1 ++ b :: m2) in *.
  assert (EQ : set_NB cv so (S f) o a (m0 :: ms) d c X true mode s =
    bind (solve_middle cv so o o a b (b :: m) ms d c X) (fun _ => fix_NB cv so o a a (m0 :: ms) d true) s).
  { rewrite set_NB_enough; [|exact SO|exists p, q, rest; exact FL]. unfold NB_body.
    assert (UM : unique_middle a (m0 :: ms) d = Some (b, length m1, 0%nat)).
    { unfold unique_middle. cbn [tl hd]. unfold m0. rewrite find_unique_here by assumption. reflexivity. }
    rewrite UM. cbn [nth tl Nat.eqb]. rewrite Em.
    assert (EN : (match head_or_tail a (m0 :: ms) d with Some _ => true
       | None => (Z.eqb a d && negb (zmem a (concat (m0 :: ms))) && Nat.even (length (m0 :: ms)))%bool end && Z.eqb mode 1)%bool = false).
    { destruct EU as [EU|[I1 I2]]; [apply Z.eqb_neq in EU; rewrite EU; apply andb_false_r|].
      apply zmem_true in I1. apply zmem_true in I2. unfold head_or_tail. rewrite I1, I2. cbn [negb andb]. rewrite andb_false_r. reflexivity. }
    rewrite EN. reflexivity. }
  rewrite EQ.
  assert (H' : entries_ok s ((b :: m) :: ms)).
  { inversion H as [|? ? [A1 A2] A3]. constructor; [|exact A3]. split; [discriminate|]. intros k Hk. apply A2.
    apply (Permutation_in k (Permutation_sym Pm) Hk). }
  assert (B' : str_ok o ((b :: m) :: ms) c) by exact B.
  assert (Nb : ~ In b (a :: m ++ concat ms ++ [d])).
  { assert (P2 : Permutation (m1 ++ m2) m) by (apply (Permutation_app_inv _ _ [] m b); exact Pm).
    intros [->|I]; [apply N1; left; reflexivity|]. apply in_app_iff in I as [I|I].
    - apply N2. apply (Permutation_in b (Permutation_sym P2) I).
    - apply N1. right. exact I. }
  destruct (solve_middle_view cv so s r l o a b m ms d c X SO V H' Ha Hd B' Nb) as [S1 S2]. fold E in S1, S2. split.
  - intros Z. rewrite (bind_err _ _ _ _ _ (S1 Z)). reflexivity.
  - intros NE NP PV. destruct (S2 NE NP) as (s1 & r1 & l1 & E1 & V1 & T1 & C1 & O1). rewrite (bind_ok _ _ _ _ _ E1).
    destruct (free_two _ _ _ _ _ FL) as (Hp & Hq & Npq & Ip & Iq).
    assert (Ib : In b (a :: concat (m0 :: ms) ++ [d])). { right. cbn [concat]. unfold m0. rewrite !in_app_iff. cbn. auto. }
    assert (Npb : p <> b) by (intros ->; auto). assert (Nqb : q <> b) by (intros ->; auto).
    destruct (only_r _ _ _ _ _ _ p O1 Npb) as [_ Lp]. destruct (only_r _ _ _ _ _ _ q O1 Nqb) as [_ Lq].
    assert (L1 : length s1 = length s) by apply T1.
    destruct (fix_NB_two cv so s1 r1 l1 o a a (m0 :: ms) d p q rest SO V1) as [_ F]; [rewrite L1; exact FL|].
    destruct F as (s2 & r2' & E2 & V2 & T2 & TM & Kr & Ko); [rewrite Lp, Lq; exact PV|].
    exists s2, r2', l1. split; [exact E2|]. split; [exact V2|]. split; [apply (step_trans _ _ _ _ _ T1 T2)|]. split; [exact TM|].
    rewrite (chv_ext r1 l1 r2' l1) by auto. rewrite (chv_perm r1 l1 o a m0 (b :: m) ms d c Pm). exact C1.
Qed.

(* ---- one free leg: the other one is the head of the string ---- *)
Lemma free_one n (ls : list Z) p : free_legs n ls = [p] -> (1 <= p <= Z.of_nat n)%Z /\ ~ In p ls.
Proof. intros E. apply free_legs_In. rewrite E. left. reflexivity. Qed.
Lemma set_NB_one cv so f o a ms d c X mode s p : set_like so -> free_legs (length s) (a :: concat ms ++ [d]) = [p] ->
  try_flips so (length s) a ms d (seq 0 (length ms)) = Ok None ->
  set_NB cv so (S f) o a ms d c X true mode s = NB_body cv so f o a ms d c X true mode s.
Proof.
  intros SO FL TF. cbn [set_NB]. rewrite bind_get.
  rewrite (bind_lift _ _ _ _ (complementary_free so (length s) (a :: concat ms ++ [d]) SO ltac:(discriminate))). rewrite FL.
  cbn [length Nat.ltb Nat.leb andb]. rewrite (bind_lift _ _ _ _ TF). reflexivity.
Qed.
Lemma NB_head_one cv so f s r l o a ms d c X p : set_like so -> view s r l -> entries_ok s ms -> ms <> [] -> inr s a -> inr s d ->
  str_ok o ms c -> ~ In a (concat ms) -> a <> d -> free_legs (length s) (a :: concat ms ++ [d]) = [p] ->
  try_flips so (length s) a ms d (seq 0 (length ms)) = Ok None ->
  let w := wcol r l o ms d c in
  (e0 w = 0 -> set_NB cv so (S f) o a ms d c X true 1 s = (s, Err ZeroDivisionError)) /\
  (e0 w <> 0 -> exists s1 r1 l1, view s1 r1 l1 /\ step s s1 [a] /\ chv r1 l1 o a ms d c = X /\ only o a r l r1 l1 /\
     (brk r1 l1 o p a = 0 -> set_NB cv so (S f) o a ms d c X true 1 s = (s1, Err ZeroDivisionError)) /\
     (brk r1 l1 o p a <> 0 ->
       exists s' r' l', set_NB cv so (S f) o a ms d c X true 1 s = (s', Ok tt) /\ view s' r' l' /\ step s s' [a; p; a] /\
         total_mom s' = mzero /\ chv r' l' o a ms d c = X)).
Proof.
  intros SO V H N Ha Hd B Na Nad FL TF w. pose proof B as [No _].
  assert (Ap : apart o a ms d) by (split; [exact Na|left; exact Nad]).
  assert (E : set_NB cv so (S f) o a ms d c X true 1 s = bind (solve_ends o a ms d c X) (fun _ => fix_NB cv so o a a ms d true) s).
  { rewrite (set_NB_one cv so f o a ms d c X 1 s p SO FL TF). unfold NB_body. rewrite (head_free a ms d Na (or_introl Nad)). reflexivity. }
  rewrite E. destruct (solve_ends_lin s r l o a ms d c X V H N Ha Hd B Ap) as [S1 S2]. fold w in S1, S2. split.
  - intros Z. rewrite (bind_err _ _ _ _ _ (S1 Z)). reflexivity.
  - intros NZ. destruct (S2 NZ) as (s1 & r1 & l1 & E1 & V1 & T1 & C1 & O1). exists s1, r1, l1.
    split; [exact V1|]. split; [exact T1|]. split; [exact C1|]. split; [exact O1|]. rewrite (bind_ok _ _ _ _ _ E1).
    destruct (free_one _ _ _ FL) as [Hp Ip]. assert (Npa : p <> a) by (intros ->; apply Ip; left; reflexivity).
    assert (L1 : length s1 = length s) by apply T1.
    assert (EF : fix_NB cv so o a a ms d true s1 = fixm cv p a (if is_angle o then 2 else 1) s1).
    { unfold fix_NB. rewrite bind_get. rewrite (bind_lift _ _ _ _ (complementary_free so (length s1) (a :: concat ms ++ [d]) SO ltac:(discriminate))).
      rewrite L1, FL. reflexivity. }
    rewrite EF, is_angle_oflag.
    assert (Hp1 : inr s1 p) by (apply (inr_step _ _ _ p T1); exact Hp). assert (Ha1 : inr s1 a) by (apply (inr_step _ _ _ a T1); exact Ha).
    destruct (fixm_view cv s1 r1 l1 p a (if oflag o then 2 else 1) V1 Hp1 Ha1 Npa) as [F1 F2]. unfold brk.
    destruct (oflag o) eqn:Of; cbn [Z.eqb Pos.eqb] in F1, F2; (split; [exact F1|]); intros PV;
      destruct (F2 PV) as (s2 & r2' & l2' & E2 & V2 & T2 & TM & -> & O2).
    + exists s2, r1, l2'. split; [exact E2|]. split; [exact V2|]. split; [apply (step_trans _ _ _ _ _ T1 T2)|]. split; [exact TM|].
      rewrite <- C1, !chv_wcol. f_equal; [destruct o; try discriminate; reflexivity|].
      apply wcol_ext.
      * intros k Hk. split; [reflexivity|]. apply O2; [|intros ->; auto]. intros ->. apply Ip. right. apply in_app_iff. auto.
      * unfold col. destruct c; [reflexivity| |]; f_equal; apply O2; try congruence; intros <-; apply Ip; right; apply in_app_iff; cbn; auto.
    + exists s2, r2', l1. split; [exact E2|]. split; [exact V2|]. split; [apply (step_trans _ _ _ _ _ T1 T2)|]. split; [exact TM|].
      rewrite <- C1, !chv_wcol. f_equal; [destruct o; try discriminate; try congruence; reflexivity|].
      apply wcol_ext.
      * intros k Hk. split; [|reflexivity]. apply O2; [|intros ->; auto]. intros ->. apply Ip. right. apply in_app_iff. auto.
      * unfold col. destruct c; [|reflexivity|reflexivity]. apply O2; try congruence. intros <-; apply Ip; right; apply in_app_iff; cbn; auto.
Qed.

(* ---- rewriting an entry by momentum conservation ---- *)
Lemma upto_split n (m : list Z) : NoDup m -> (forall k, In k m -> (1 <= k <= Z.of_nat n)%Z) -> Permutation (m ++ free_legs n m) (upto n).
Proof.
  intros N H. apply NoDup_Permutation.
  - apply NoDup_app'; auto using free_legs_NoDup. intros k Hk Hf. apply free_legs_In in Hf. tauto.
  - apply upto_NoDup.
  - intros k. rewrite in_app_iff, free_legs_In, upto_In. destruct (in_dec Z.eq_dec k m) as [I|I]; [|tauto]. specialize (H k I). tauto.
Qed.
End Chains.
