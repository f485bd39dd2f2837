(* Proofs about SetPairMore.v, second part: setting a chain without restoring momentum conservation. *)
From Coq Require Import List ZArith Bool Lia Ring Field Permutation.
From Verif Require Import Base Fld Particle ParticleSpec ParticleThm Index IndexThm Phase PhaseSpec PhaseThm
  Arcs ArcsThm Compute ComputeSpec ComputeThm ComputeThm2 SetOne SetSpec SetThm SetThm2 SetThm3 SetThm4 SetThm5 SetThm8 SetPair SetPairSpec SetPairThm
  SetPairMore SetMoreSpec SetMoreThm.
Import ListNotations.

Section More.
Context {K : Fld}.
Open Scope fld_scope.
Add Field Kmo2 : (fth K).
Implicit Types (s : ps K) (r l : Z -> v2 K) (k : Z) (X v w : K) (o : obr) (c : cbr) (ms : list (list Z)).

Lemma set_NB_off cv so f o a ms d c X mode s : set_like so ->
  set_NB cv so (S f) o a ms d c X false mode s = NB_body cv so f o a ms d c X false mode s.
Proof.
  intros SO. cbn [set_NB]. rewrite bind_get.
  rewrite (bind_lift _ _ _ _ (complementary_free so (length s) (a :: concat ms ++ [d]) SO ltac:(discriminate))).
  rewrite andb_false_r. reflexivity.
Qed.
Lemma chain_only_head cv so s r l o a ms d c X : set_like so -> view s r l -> entries_ok s ms -> ms <> [] -> inr s a -> inr s d ->
  str_ok o ms c -> apart o a ms d ->
  let w := wcol r l o ms d c in
  (e0 w = 0 -> set_only cv so (chain_t o a ms d c) X 1 s = (s, Err ZeroDivisionError)) /\
  (e0 w <> 0 -> exists s' r' l', set_only cv so (chain_t o a ms d c) X 1 s = (s', Ok tt) /\ view s' r' l' /\ step s s' [a] /\
     chv r' l' o a ms d c = X /\ only o a r l r' l').
Proof.
  intros SO V H N Ha Hd B Ap w.
  assert (E : set_inner cv so (chain_t o a ms d c) X false 1 s = bind (solve_ends o a ms d c X) (fun _ => ret tt) s).
  { rewrite inner_chain by exact H. rewrite set_NB_off by exact SO. unfold NB_body. destruct Ap as [A1 A2]. rewrite (head_free a ms d A1 A2). reflexivity. }
  destruct (solve_ends_lin s r l o a ms d c X V H N Ha Hd B Ap) as [S1 S2]. fold w in S1, S2. split.
  - intros Z. apply set_err. rewrite E, (bind_err _ _ _ _ _ (S1 Z)). reflexivity.
  - intros NZ. destruct (S2 NZ) as (s1 & r1 & l1 & E1 & V1 & T1 & C1 & O1). exists s1, r1, l1.
    split; [|auto]. apply set_only_ok.
    + rewrite E, (bind_ok _ _ _ _ _ E1). reflexivity.
    + rewrite (target_view s1 r1 l1 o a ms d c V1 (entries_step _ _ _ _ T1 H) N (inr_step _ _ _ _ T1 Ha) (inr_step _ _ _ _ T1 Hd) B). f_equal. exact C1.
Qed.
(* the leg at the front of the first sum is changed *)
Lemma chain_only_middle cv so s r l o a m1 b m2 ms d c X mode : set_like so -> view s r l ->
  entries_ok s ((m1 ++ b :: m2) :: ms) -> inr s a -> inr s d -> str_ok o ((m1 ++ b :: m2) :: ms) c -> mode <> 1%Z ->
  (forall k, In k m1 -> In k (a :: concat ms ++ [d])) -> ~ In b (a :: concat ms ++ [d]) -> ~ In b (m1 ++ m2) ->
  let E := vdot (row r l (swap_o o) b) (wcol r l (swap_o o) ms d c) in
  ((E = 0 \/ pivot r l o a = 0) -> set_only cv so (chain_t o a ((m1 ++ b :: m2) :: ms) d c) X mode s = (s, Err ZeroDivisionError)) /\
  (E <> 0 -> pivot r l o a <> 0 ->
   exists s' r' l', set_only cv so (chain_t o a ((m1 ++ b :: m2) :: ms) d c) X mode s = (s', Ok tt) /\ view s' r' l' /\ step s s' [b] /\
     chv r' l' o a ((m1 ++ b :: m2) :: ms) d c = X /\ only o b r l r' l').
Proof.
  intros SO V H Ha Hd B EU H1 N1 N2 E.
  destruct (swap_front_perm m1 b m2) as (m & Em & Pm).
  set (m0 := m1 ++ b :: m2) in *.
  assert (EQ : set_inner cv so (chain_t o a (m0 :: ms) d c) X false mode s =
    bind (solve_middle cv so o o a b (b :: m) ms d c X) (fun _ => ret tt) s).
  { rewrite inner_chain by exact H. rewrite set_NB_off by exact SO. unfold NB_body.
    assert (UM : unique_middle a (m0 :: ms) d = Some (b, length m1, 0%nat)).
    { unfold unique_middle. cbn [tl hd]. unfold m0. rewrite find_unique_here by assumption. reflexivity. }
    rewrite UM. cbn [nth tl Nat.eqb]. rewrite Em. apply Z.eqb_neq in EU. rewrite EU, andb_false_r. reflexivity. }
  assert (H' : entries_ok s ((b :: m) :: ms)).
  { inversion H as [|? ? [A1 A2] A3]. constructor; [|exact A3]. split; [discriminate|]. intros k Hk. apply A2.
    apply (Permutation_in k (Permutation_sym Pm) Hk). }
  assert (B' : str_ok o ((b :: m) :: ms) c) by exact B.
  assert (Nb : ~ In b (a :: m ++ concat ms ++ [d])).
  { assert (P2 : Permutation (m1 ++ m2) m) by (apply (Permutation_app_inv _ _ [] m b); exact Pm).
    intros [->|I]; [apply N1; left; reflexivity|]. apply in_app_iff in I as [I|I].
    - apply N2. apply (Permutation_in b (Permutation_sym P2) I).
    - apply N1. right. exact I. }
  destruct (solve_middle_view cv so s r l o a b m ms d c X SO V H' Ha Hd B' Nb) as [S1 S2]. fold E in S1, S2. split.
  - intros Z. apply set_err. rewrite EQ, (bind_err _ _ _ _ _ (S1 Z)). reflexivity.
  - intros NE NP. destruct (S2 NE NP) as (s1 & r1 & l1 & E1 & V1 & T1 & C1 & O1). exists s1, r1, l1.
    assert (C2 : chv r1 l1 o a (m0 :: ms) d c = X) by (rewrite (chv_perm r1 l1 o a m0 (b :: m) ms d c Pm); exact C1).
    split; [|auto]. apply set_only_ok.
    + rewrite EQ, (bind_ok _ _ _ _ _ E1). reflexivity.
    + rewrite (target_view s1 r1 l1 o a (m0 :: ms) d c V1 (entries_step _ _ _ _ T1 H) ltac:(discriminate) (inr_step _ _ _ _ T1 Ha) (inr_step _ _ _ _ T1 Hd) B). f_equal. exact C2.
Qed.
End More.
