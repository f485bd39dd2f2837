(* Proofs about the pair s_ijk and Delta: the closed formulas of Closed.v inside the pair
   setter. *)
From Coq Require Import List ZArith Bool Lia Ring Field Permutation.
From Verif Require Import Base Fld Particle ParticleSpec ParticleThm Index IndexThm Phase PhaseSpec PhaseThm
  Arcs ArcsThm Compute ComputeSpec ComputeThm ComputeThm2 ComputeThm3 GramThm DetThm SetOne SetSpec SetThm SetThm2 SetThm3 SetThm4 SetThm5 SetThm6 SetThm7 SetThm8 SetPair SetPairSpec SetPairThm
  SetPairMore SetMoreSpec SetMoreThm SetMoreThm2 SetMoreThm3 SetMoreThm4 SetMoreThm5 Closed ClosedSpec ClosedThm2.
Import ListNotations.

Section Closed3.
Context {K : Fld}.
Open Scope fld_scope.
Add Field Kcf4 : (fth K).
Implicit Types (s : ps K) (r l : Z -> v2 K) (k : Z) (X Y v w : K).

Lemma perms3 {A} (cs : list A) x y z : Permutation cs [x; y; z] ->
  cs = [x; y; z] \/ cs = [x; z; y] \/ cs = [y; x; z] \/ cs = [y; z; x] \/ cs = [z; x; y] \/ cs = [z; y; x].
Proof.
  intros P. pose proof (Permutation_length P) as L. destruct cs as [|a [|b [|c [|? ?]]]]; try discriminate L. clear L.
  apply Permutation_sym in P. pose proof P as Q. apply Permutation_vs_cons_inv in Q as (l1 & l2 & E).
  destruct l1 as [|u [|u' [|u'' l1]]]; cbn in E.
  - injection E as E1 E2. subst a l2. apply Permutation_cons_inv in P. apply Permutation_length_2_inv in P as [P|P]; injection P as -> ->; auto.
  - injection E as E1 E2 E3. subst u a l2. assert (P' : Permutation [x; z] [b; c]) by (apply (Permutation_cons_inv (a := y)); rewrite <- P; apply perm_swap).
    apply Permutation_length_2_inv in P' as [P'|P']; injection P' as -> ->; auto 10.
  - injection E as E1 E2 E3 E4. subst u u' a l2. assert (P' : Permutation [x; y] [b; c]) by (apply (Permutation_cons_inv (a := z)); rewrite <- P; apply (Permutation_cons_append [x; y] z)).
    apply Permutation_length_2_inv in P' as [P'|P']; injection P' as -> ->; auto 10.
  - destruct l1; discriminate.
Qed.

Lemma NoDup_both {A} (l l' : list A) : NoDup (l ++ l') -> NoDup l /\ NoDup l'.
Proof.
  induction l as [|x l IH]; cbn; [intros N; split; [constructor|exact N]|]. intros N. inversion N as [|? ? N1 N2]; subst. destruct (IH N2). split; [|assumption]. constructor; [|assumption].
  intros I. apply N1, in_app_iff. auto.
Qed.
Lemma v2_eta (u : v2 K) : u = V2 (e0 u) (e1 u). Proof. destruct u. reflexivity. Qed.
(* ---- which corners ---- *)
Definition at3 (cs : list (list Z)) (i j : nat) (x y z : list Z) : Prop :=
  nth_error cs i = Some x /\ nth_error cs j = Some y /\
  map snd (filter (fun u => negb (Nat.eqb (fst u) i || Nat.eqb (fst u) j)) (combine (seq 0 (length cs)) cs)) = [z].
Lemma corners_found T cs (A B C D E F : Z) rest : Permutation cs [[A; B]; [C; D]; E :: F :: rest] ->
  zmem A T = true -> zmem B T = true -> zmem C T = true -> zmem D T = false -> zmem E T = false ->
  exists i j, corners_in T cs = Some (i, j) /\ at3 cs i j [A; B] [C; D] (E :: F :: rest).
Proof.
  intros P TA TB TC TD TE. apply perms3 in P as [->|[->|[->|[->|[->| ->]]]]]; unfold corners_in, where_, at3; cbn; rewrite ?TA, ?TB, ?TC, ?TD, ?TE; cbn;
    repeat eexists.
Qed.
Lemma corners_missed T cs (A B C D E F : Z) rest : Permutation cs [[A; B]; [C; D]; E :: F :: rest] ->
  zmem A T = false -> zmem C T = false -> (forall x, In x (E :: F :: rest) -> zmem x T = true) -> corners_in T cs = None.
Proof.
  intros P TA TC TE. assert (AL : forallb (fun x => zmem x T) (E :: F :: rest) = true) by (apply forallb_forall; exact TE). assert (HE : zmem E T = true) by (apply TE; cbn; auto).
  apply perms3 in P as [->|[->|[->|[->|[->| ->]]]]]; unfold corners_in, where_; cbn -[forallb]; rewrite AL, ?TA, ?TC, ?HE; cbn; rewrite ?TA, ?TC; reflexivity.
Qed.

(* ---- the values ---- *)
Lemma delta_any s r l cs (X1 X2 X3 : list Z) : view s r l -> Permutation cs [X1; X2; X3] -> legs_of s X1 -> legs_of s X2 -> legs_of s X3 -> X1 <> [] -> X2 <> [] -> X3 <> [] ->
  madd (madd (psum r l X1) (psum r l X2)) (psum r l X3) = mzero -> c_delta s cs = Ok (gram3 (psum r l X1) (psum r l X2)).
Proof.
  intros V P L1 L2 L3 N1 N2 N3 M. assert (H2 : (2 : K) <> 0) by apply f2_nz.
  apply perms3 in P as [->|[->|[->|[->|[->| ->]]]]]; rewrite (delta_view s r l) by assumption; [reflexivity|..]; f_equal;
  revert M; generalize (psum r l X1) (psum r l X2) (psum r l X3); intros [a b c d] [e f g h] [i j k m] M; unfold madd, mzero in M; cbn in M; injection M as M1 M2 M3 M4;
  (assert (i = - (a + e)) as -> by (transitivity ((a + e + i) - (a + e)); [ring|rewrite M1; ring]));
  (assert (j = - (b + f)) as -> by (transitivity ((b + f + j) - (b + f)); [ring|rewrite M2; ring]));
  (assert (k = - (c + g)) as -> by (transitivity ((c + g + k) - (c + g)); [ring|rewrite M3; ring]));
  (assert (m = - (d + h)) as -> by (transitivity ((d + h + m) - (d + h)); [ring|rewrite M4; ring]));
  unfold gram3, polar, mdet, adj; unfold_vec; field; exact H2.
Qed.

(* ---- the pair ---- *)
Lemma delta_lists_of s t cs : corners_of (length s) t cs -> exists b, delta_lists t s = (s, Ok (b, cs)).
Proof.
  intros [->|(i & j & k & l0 & l1 & l2 & -> & TA & ->)]; [exists false; reflexivity|]. exists true. unfold delta_lists. rewrite bind_get. unfold zlen.
  rewrite (bind_lift _ _ _ _ (three_arcs_arcs (length s) i j k (Datatypes.S (length s)) _ _ _ (Nat.lt_succ_diag_r _) TA)). reflexivity.
Qed.
Lemma delta_value s t cs : Forall (fun p => fresh p) s -> corners_of (length s) t cs -> c_target s t = c_delta s cs.
Proof.
  intros F [->|(i & j & k & l0 & l1 & l2 & -> & TA & ->)]; unfold c_target, compute; [destruct (c_delta s cs); reflexivity|].
  rewrite (proj1 (delta3_arcs s i j k _ _ _ (view_sound _ _ _ (view_of s F)) TA)). destruct (c_delta s _); reflexivity.
Qed.
Lemma kind_corners n t cs : corners_of n t cs -> kind_of t = KD.
Proof. intros [->|(i & j & k & l0 & l1 & l2 & -> & _)]; reflexivity. Qed.
Lemma inner_S_D cv so xa xe fuel S v1 t2 w s cs : corners_of (length s) t2 cs ->
  set_pair_inner cv so (the_others cv so xa xe (Datatypes.S fuel)) (Datatypes.S fuel) (TInv (IS S)) v1 t2 w s = pair_S_D cv so xa xe S v1 t2 w s.
Proof. intros [->|(i & j & k & l0 & l1 & l2 & -> & _)]; reflexivity. Qed.
Lemma crosses_in n S (A B C : Z) : crosses n S A B C -> NoDup [A; B; C] -> (forall x, In x S <-> In x [A; B; C]) \/ (forall x, In x S <-> (1 <= x <= Z.of_nat n)%Z /\ ~ In x [A; B; C]).
Proof.
  intros [P|[N P]] ND; [left; intros x; split; apply Permutation_in; [|apply Permutation_sym]; exact P|]. right. intros x. split.
  - intros H. split; [apply upto_In, (Permutation_in _ P), in_app_iff; auto|]. intros J. apply (NoDup_disj S [A; B; C] x); [apply (Permutation_NoDup (Permutation_sym P)), upto_NoDup|exact H|exact J].
  - intros [H1 H2]. apply upto_In in H1. apply (Permutation_in _ (Permutation_sym P)), in_app_iff in H1 as [H1|H1]; [exact H1|contradiction].
Qed.
Section Any.
Context (xa xe : list K -> K -> K -> result K).
Context (solves : forall a b c d e f g h i j k l m n o p Y X a' e' : K, let args := [a; b; c; d; e; f; g; h; i; j; k; l; m; n; o; p] in
  xa args Y X = Ok a' -> xe args Y X = Ok e' ->
  let D := d * f * g - c * f * h + d * j * k - c * j * l in
  D <> 0 /\ D * a' = (b * d * i * k + f * h * i * k - b * c * i * l - f * g * i * l - Y) + (b * d * g - b * c * h - h * j * k + g * j * l) * e' /\
  let P00 := a' * c + e' * g in let P01 := a' * d + e' * h in let P10 := b * c + f * g in let P11 := b * d + f * h in
  let Q00 := i * k + m * o in let Q01 := i * l + m * p in let Q10 := j * k + n * o in let Q11 := j * l + n * p in
  let PQ := P00 * Q11 + P11 * Q00 - P01 * Q10 - P10 * Q01 in
  PQ * PQ - 2 * 2 * ((P00 * P11 - P01 * P10) * (Q00 * Q11 - Q01 * Q10)) = 2 * 2 * X).
Lemma pair_found cv so S v1 t2 w s cs (A B C D E F : Z) rest r l : set_like so -> view s r l -> corners_of (length s) t2 cs ->
  Permutation cs [[A; B]; [C; D]; E :: F :: rest] -> Permutation (concat cs) (upto (length s)) -> crosses (length s) S A B C ->
  pair_S_D cv so xa xe S v1 t2 w s =
  (let args := [e0 (r A); e1 (r A); e0 (l A); e1 (l A); e0 (r B); e1 (r B); e0 (l B); e1 (l B); e0 (r C); e1 (r C); e0 (l C); e1 (l C); e0 (r D); e1 (r D); e0 (l D); e1 (l D)] in
   bind (lift (xa args v1 w)) (fun a => bind (lift (xe args v1 w)) (fun e =>
   bind (on A (assign_r_sp_d (V2 a (e1 (r A))))) (fun _ => bind (on B (assign_r_sp_d (V2 e (e1 (r B))))) (fun _ => bind (fixm cv E F 1) (fun _ => ret PNone)))))) s.
Proof.
  intros SO V CO P U CR. destruct (delta_lists_of s t2 cs CO) as (b & DL).
  assert (P6 : Permutation ([A; B; C; D; E; F] ++ rest) (upto (length s))).
  { rewrite <- U. apply Permutation_sym. transitivity (concat [[A; B]; [C; D]; E :: F :: rest]); [|cbn; rewrite app_nil_r; reflexivity].
    clear -P. induction P; cbn; [reflexivity|apply Permutation_app_head; assumption|rewrite !app_assoc; apply Permutation_app_tail, Permutation_app_comm|etransitivity; eassumption]. }
  assert (ND : NoDup ([A; B; C; D; E; F] ++ rest)) by (apply (Permutation_NoDup (Permutation_sym P6)), upto_NoDup).
  assert (HL : forall x, In x ([A; B; C; D; E; F] ++ rest) -> inr s x) by (intros x Hx; apply upto_In, (Permutation_in _ P6 Hx)).
  assert (D3 : NoDup [A; B; C] /\ forall x, In x (D :: E :: F :: rest) -> ~ In x [A; B; C]).
  { split; [apply (NoDup_both [A; B; C] (D :: E :: F :: rest)), ND|]. intros x H1 H2. exact (NoDup_disj [A; B; C] (D :: E :: F :: rest) x ND H2 H1). }
  destruct D3 as [D3 DJ].
  assert (FD : exists i j, (match corners_in S cs with Some r => ret (Some r) | None => bind (lift (complementary so (length s) S)) (fun S' => ret (corners_in S' cs)) end) s = (s, Ok (Some (i, j))) /\ at3 cs i j [A; B] [C; D] (E :: F :: rest)).
  { destruct (crosses_in _ _ _ _ _ CR D3) as [IS|IS].
    - destruct (corners_found S cs A B C D E F rest P) as (i & j & E1 & E2); try (apply zmem_true, IS; cbn; tauto); try (apply zmem_false; rewrite IS; apply DJ; cbn; tauto).
      exists i, j. rewrite E1. split; [reflexivity|exact E2].
    - assert (NE : S <> []) by (intros ->; apply (IS D); split; [apply HL; cbn; tauto|apply DJ; cbn; tauto]).
      rewrite (corners_missed S cs A B C D E F rest P); cycle 1.
      + apply zmem_false. rewrite IS. cbn. tauto.
      + apply zmem_false. rewrite IS. cbn. tauto.
      + intros x Hx. apply zmem_true, IS. split; [apply HL; cbn in *; tauto|apply DJ; cbn in *; tauto].
      + rewrite (bind_lift _ _ _ _ (complementary_free so (length s) S SO NE)).
        assert (JF : forall x, In x (free_legs (length s) S) <-> In x [A; B; C]).
        { intros x. rewrite free_legs_In, IS. split; [intros [H1 H2]; destruct (in_dec Z.eq_dec x [A; B; C]); [assumption|exfalso; apply H2; auto]|].
          intros H. split; [apply HL; cbn in *; tauto|tauto]. }
        destruct (corners_found (free_legs (length s) S) cs A B C D E F rest P) as (i & j & E1 & E2); try (apply zmem_true, JF; cbn; tauto); try (apply zmem_false; rewrite JF; apply DJ; cbn; tauto).
        exists i, j. rewrite E1. split; [reflexivity|exact E2]. }
  destruct FD as (i & j & E1 & E2 & E3 & E4). unfold pair_S_D. rewrite (bind_ok _ _ _ _ _ DL), bind_get. cbn [snd]. rewrite (bind_ok _ _ _ _ _ E1).
  rewrite (pyget_ok _ _ _ _ _ E2), (pyget_ok _ _ _ _ _ E3). rewrite (pyget_ok [A; B] 0 A), (pyget_ok [A; B] 1 B), (pyget_ok [C; D] 0 C), (pyget_ok [C; D] 1 D) by reflexivity. rewrite E4. rewrite (pyget_ok [E :: F :: rest] 0 (E :: F :: rest)), (pyget_ok (E :: F :: rest) 0 E), (pyget_ok (E :: F :: rest) 1 F) by reflexivity.
  rewrite (spinors_view s r l A _ V), (spinors_view s r l B _ V), (spinors_view s r l C _ V), (spinors_view s r l D _ V) by (apply HL; cbn; tauto). reflexivity.
Qed.

Lemma concat_perm (cs cs' : list (list Z)) : Permutation cs cs' -> Permutation (concat cs) (concat cs').
Proof. induction 1; cbn; [reflexivity|apply Permutation_app_head; assumption|rewrite !app_assoc; apply Permutation_app_tail, Permutation_app_comm|etransitivity; eassumption]. Qed.
Lemma pair_S_D_gen cv so fuel S v1 t2 w s cs (A B C D E F : Z) rest : set_like so -> Forall (fun p => fresh p) s -> corners_of (length s) t2 cs ->
  Permutation cs [[A; B]; [C; D]; E :: F :: rest] -> Permutation (concat cs) (upto (length s)) -> crosses (length s) S A B C ->
  exists a b c d e f g h i j k l m n o p : K,
    components s A a b c d /\ components s B e f g h /\ components s C i j k l /\ components s D m n o p /\
    let args := [a; b; c; d; e; f; g; h; i; j; k; l; m; n; o; p] in
    let run := set_pair_all cv so xa xe (Datatypes.S fuel) (TInv (IS S)) v1 t2 w s in
    (forall x, xa args v1 w = Err x -> snd run = Err x) /\
    (forall a' e', xa args v1 w = Ok a' -> xe args v1 w = Ok e' ->
      (c_S2 s E F = Ok 0 -> snd run = Err ZeroDivisionError) /\
      (nz (c_S2 s E F) -> exists s', run = (s', Ok tt) /\ made2 s s' (TInv (IS S)) v1 t2 w [A; B; E; F] /\
         components s' A a' b c d /\ components s' B e' f g h)).
Proof.
  intros SO FR CO P U CR. pose proof (view_of s FR) as V. set (r := rs s) in *. set (l := ls s) in *.
  assert (P6 : Permutation ([A; B; C; D; E; F] ++ rest) (upto (length s))).
  { rewrite <- U. apply Permutation_sym. transitivity (concat [[A; B]; [C; D]; E :: F :: rest]); [apply concat_perm, P|cbn; rewrite app_nil_r; reflexivity]. }
  assert (ND : NoDup ([A; B; C; D; E; F] ++ rest)) by (apply (Permutation_NoDup (Permutation_sym P6)), upto_NoDup).
  assert (HL : forall x, In x ([A; B; C; D; E; F] ++ rest) -> inr s x) by (intros x Hx; apply upto_In, (Permutation_in _ P6 Hx)).
  assert (CM : forall s' r' l' x, view s' r' l' -> length s' = length s -> inr s x -> components s' x (e0 (r' x)) (e1 (r' x)) (e0 (l' x)) (e1 (l' x))).
  { intros s' r' l' x V' L' Hx. assert (Hx' : inr s' x) by (unfold inr in *; rewrite L'; exact Hx). destruct (view_get s' r' l' x V' Hx') as (q & Gq & _). destruct (V' x q Gq) as (_ & E1 & E2).
    exists q. split; [exact Gq|]. rewrite E1, E2. split; f_equal; apply v2_eta. }
  exists (e0 (r A)), (e1 (r A)), (e0 (l A)), (e1 (l A)), (e0 (r B)), (e1 (r B)), (e0 (l B)), (e1 (l B)), (e0 (r C)), (e1 (r C)), (e0 (l C)), (e1 (l C)), (e0 (r D)), (e1 (r D)), (e0 (l D)), (e1 (l D)).
  do 4 (split; [apply CM; auto; apply HL; cbn; tauto|]). intros args run.
  assert (EI : set_pair_inner cv so (the_others cv so xa xe (Datatypes.S fuel)) (Datatypes.S fuel) (TInv (IS S)) v1 t2 w s =
     bind (lift (xa args v1 w)) (fun a => bind (lift (xe args v1 w)) (fun e =>
     bind (on A (assign_r_sp_d (V2 a (e1 (r A))))) (fun _ => bind (on B (assign_r_sp_d (V2 e (e1 (r B))))) (fun _ => bind (fixm cv E F 1) (fun _ => ret PNone))))) s).
  { rewrite (inner_S_D cv so _ _ fuel S v1 t2 w s cs CO). apply (pair_found cv so S v1 t2 w s cs A B C D E F rest r l SO V CO P U CR). }
  unfold run, set_pair_all, set_pair. clear run. set (inner := set_pair_inner _ _ _ _ _ _ _ _) in *. split.
  - intros x Ex. apply pair_checked_err. rewrite EI, (bind_lift_err _ _ _ _ Ex). reflexivity.
  - intros a' e' Ea Ee. rewrite (bind_lift _ _ _ _ Ea), (bind_lift _ _ _ _ Ee) in EI.
    destruct (solves _ _ _ _ _ _ _ _ _ _ _ _ _ _ _ _ v1 w a' e' Ea Ee) as (_ & Q1 & Q2). cbv zeta in Q2. clear Ea Ee args.
    assert (HA : inr s A) by (apply HL; cbn; tauto). assert (HB : inr s B) by (apply HL; cbn; tauto). assert (HE : inr s E) by (apply HL; cbn; tauto). assert (HF : inr s F) by (apply HL; cbn; tauto).
    assert (NN : A <> B /\ E <> F /\ forall x, In x [A; B; C; D] -> x <> E /\ x <> F).
    { split; [intros ->; inversion ND as [|? ? N1 _]; apply N1; cbn; auto|]. assert (ND' := proj2 (NoDup_both [A; B; C; D] (E :: F :: rest) ND)).
      split; [intros ->; inversion ND' as [|? ? N1 _]; apply N1; cbn; auto|]. intros x Hx. split; intros ->; apply (NoDup_disj [A; B; C; D] (E :: F :: rest) _ ND Hx); cbn; auto. }
    destruct NN as (NAB & NEF & NX).
    assert (NC : A <> C /\ A <> D /\ B <> C /\ B <> D).
    { pose proof (proj1 (NoDup_both [A; B; C; D] (E :: F :: rest) ND)) as N4. repeat split; intros ->; inversion N4 as [|? ? N1 N2]; inversion N2 as [|? ? N3 _]; cbn in *; tauto. }
    destruct NC as (NAC & NAD & NBC & NBD).
    destruct (on_rd s r l A (V2 a' (e1 (r A))) V HA) as (s1 & E1 & V1 & T1). rewrite (bind_ok _ _ _ _ _ E1) in EI.
    pose proof (fun q => inr_step _ _ _ q T1) as I1.
    destruct (on_rd s1 _ l B (V2 e' (e1 (r B))) V1 (I1 B HB)) as (s2 & E2 & W2 & T2). rewrite (bind_ok _ _ _ _ _ E2) in EI.
    pose proof (step_trans _ _ _ _ _ T1 T2) as T12. pose proof (fun q => inr_step _ _ _ q T12) as I2.
    destruct (fixm_view cv s2 _ l E F 1 W2 (I2 E HE) (I2 F HF) NEF) as [F1 F2]. cbn [Z.eqb Pos.eqb] in F1, F2.
    rewrite (S2_view s r l E F V HE HF). split.
    + intros Z. injection Z as Z. apply pair_checked_err. rewrite EI, (bind_err _ _ _ _ _ (F1 Z)). reflexivity.
    + intros (x & Ex & Nx). injection Ex as Ex. rewrite <- Ex in Nx. clear x Ex. destruct (F2 Nx) as (s3 & r' & l' & E3 & V3 & T3 & TM & -> & O). rewrite (bind_ok _ _ _ _ _ E3) in EI.
      pose proof (step_trans _ _ _ _ _ T12 T3) as T. assert (L : length s3 = length s) by apply T.
      assert (RA : r' A = V2 a' (e1 (r A))).
      { rewrite O by (apply NX; cbn; tauto). rewrite upd_other by congruence. apply upd_same. }
      assert (RB : r' B = V2 e' (e1 (r B))) by (rewrite O by (apply NX; cbn; tauto); apply upd_same).
      assert (RC : r' C = r C) by (rewrite O by (apply NX; cbn; tauto); rewrite !upd_other by congruence; reflexivity).
      assert (RD : r' D = r D) by (rewrite O by (apply NX; cbn; tauto); rewrite !upd_other by congruence; reflexivity).
      assert (HL3 : forall m, (forall x, In x m -> In x ([A; B; C; D; E; F] ++ rest)) -> legs_of s3 m) by (intros m Hm x Hx; rewrite L; apply HL, Hm, Hx).
      assert (VS : c_S s3 [A; B; C] = Ok v1).
      { rewrite (S_view s3 r' l [A; B; C] V3) by (try discriminate; apply HL3; intros x Hx; cbn in *; tauto). f_equal. rewrite psum_three, !pmv_eq, RA, RB, RC. cbn [e0 e1]. revert Q1.
        generalize (e0 (l A)) (e1 (l A)) (e1 (r A)) (e1 (r B)) (e0 (l B)) (e1 (l B)) (e0 (r C)) (e1 (r C)) (e0 (l C)) (e1 (l C)). intros c d b f g h i j k m Q1.
        transitivity (v1 + ((d * f * g - c * f * h + d * j * k - c * j * m) * a' - (b * d * i * k + f * h * i * k - b * c * i * m - f * g * i * m - v1 + (b * d * g - b * c * h - h * j * k + g * j * m) * e')) * fopp 1).
        - unfold pmv, mdet. unfold raise_r; unfold_vec. cbn [e0 e1]. ring.
        - rewrite Q1. ring. }
      assert (VS' : c_target s3 (TInv (IS S)) = Ok v1).
      { unfold c_target, compute. destruct CR as [PS|[NS PS]].
        - assert (N : S <> []) by (intros ->; apply Permutation_nil in PS; discriminate). rewrite (S_view s3 r' l S V3); [|intros x Hx; apply (HL3 [A; B; C]); [intros y Hy; cbn in *; tauto|apply (Permutation_in _ PS Hx)]|exact N].
          rewrite (psum_perm r' l S [A; B; C] PS). rewrite (S_view s3 r' l [A; B; C] V3) in VS by (try discriminate; apply HL3; intros x Hx; cbn in *; tauto). injection VS as VS. cbn [rmap scalar]. rewrite VS. reflexivity.
        - destruct S as [|x0 S]; [congruence|]. destruct (s_complement s3 x0 S A [B; C]) as (y & Y1 & Y2); [rewrite L; exact PS|exact TM|]. rewrite Y1. rewrite VS in Y2. injection Y2 as <-. reflexivity. }
      assert (VD : c_target s3 t2 = Ok w).
      { rewrite (delta_value s3 t2 cs (view_fresh _ _ _ V3)) by (rewrite L; exact CO).
        rewrite (delta_any s3 r' l cs [A; B] [C; D] (E :: F :: rest) V3 P); try discriminate; try (apply HL3; intros x Hx; cbn in *; tauto).
        - f_equal. rewrite !psum_two, !pmv_eq, RA, RB, RC, RD. cbn [e0 e1]. revert Q2. assert (N2 : (2 : K) <> 0) by apply f2_nz.
          generalize (e0 (l A)) (e1 (l A)) (e1 (r A)) (e1 (r B)) (e0 (l B)) (e1 (l B)) (e0 (r C)) (e1 (r C)) (e0 (l C)) (e1 (l C)) (e0 (r D)) (e1 (r D)) (e0 (l D)) (e1 (l D)). intros c d b f g h i j k m o p q u Q2.
          apply (times_cancel (2 * 2)); [apply mul_nz; exact N2|]. rewrite <- Q2. unfold gram3, polar, pmv, mdet, adj, raise_r. unfold_vec. cbn [e0 e1]. field. exact N2.
        - assert (PT : psum r' l ([A; B] ++ [C; D] ++ E :: F :: rest) = mzero).
          { rewrite (psum_perm r' l _ (upto (length s3))) by (rewrite L; exact P6). rewrite <- TM. assert (NS3 : s3 <> []) by (intros ->; cbn in L; unfold inr in HA; rewrite <- L in HA; cbn in HA; lia). pose proof (mom_sum_all s3 (upto (length s3)) NS3 (Permutation_refl _)) as M.
            rewrite (mom_sum_view s3 r' l _ V3) in M by (first [intros x Hx; apply upto_In, Hx | intros E0; rewrite E0 in *; unfold inr in HA; rewrite <- L in HA; apply upto_In in HA; rewrite E0 in HA; contradiction]). congruence. }
          rewrite <- PT. unfold psum. rewrite !map_app, !msum_app. unfold_vec. apply m2_ext; cbn; ring. }
      exists s3. split; [apply pair_checked_ok; [rewrite EI; reflexivity|exact VS'|exact VD|exact TM|apply (view_fresh _ _ _ V3)]|]. split.
      * constructor; auto; [apply (view_fresh _ _ _ V3)|]. intros x Hx. apply T. cbn in *. tauto.
      * pose proof (CM s3 r' l A V3 L HA) as KA. pose proof (CM s3 r' l B V3 L HB) as KB. rewrite RA in KA. rewrite RB in KB. split; assumption.
Qed.
End Any.
Theorem pair_S_D_ok cv so fuel S v1 t2 w s cs (A B C D E F : Z) rest : set_like so -> Forall (fun p => fresh p) s -> corners_of (length s) t2 cs ->
  Permutation cs [[A; B]; [C; D]; E :: F :: rest] -> Permutation (concat cs) (upto (length s)) -> crosses (length s) S A B C ->
  exists a b c d e f g h i j k l m n o p : K,
    components s A a b c d /\ components s B e f g h /\ components s C i j k l /\ components s D m n o p /\
    let args := [a; b; c; d; e; f; g; h; i; j; k; l; m; n; o; p] in
    let run := set_pair_all cv so expression_for_a expression_for_e (Datatypes.S fuel) (TInv (IS S)) v1 t2 w s in
    (forall x, expression_for_a args v1 w = Err x -> snd run = Err x) /\
    (forall a' e', expression_for_a args v1 w = Ok a' -> expression_for_e args v1 w = Ok e' ->
      (c_S2 s E F = Ok 0 -> snd run = Err ZeroDivisionError) /\
      (nz (c_S2 s E F) -> exists s', run = (s', Ok tt) /\ made2 s s' (TInv (IS S)) v1 t2 w [A; B; E; F] /\
         components s' A a' b c d /\ components s' B e' f g h)).
Proof. exact (pair_S_D_gen expression_for_a expression_for_e closed_solves cv so fuel S v1 t2 w s cs A B C D E F rest). Qed.
Theorem pair_S_D_outcome cv so fuel S v1 t2 w s cs (A B C D E F : Z) rest : set_like so -> Forall (fun p => fresh p) s -> corners_of (length s) t2 cs ->
  Permutation cs [[A; B]; [C; D]; E :: F :: rest] -> Permutation (concat cs) (upto (length s)) -> crosses (length s) S A B C ->
  let run := set_pair_all cv so expression_for_a expression_for_e (Datatypes.S fuel) (TInv (IS S)) v1 t2 w s in
  (exists s', run = (s', Ok tt) /\ made2 s s' (TInv (IS S)) v1 t2 w [A; B; E; F]) \/ snd run = Err ZeroDivisionError \/ snd run = Err ValueError.
Proof.
  intros SO FR CO P U CR run. destruct (pair_S_D_ok cv so fuel S v1 t2 w s cs A B C D E F rest SO FR CO P U CR) as (a & b & c & d & e & f & g & h & i & j & k & l & m & n & o & p & _ & _ & _ & _ & H).
  cbv zeta in H. fold run in H. destruct H as [H1 H2].
  destruct (closed_cases a b c d e f g h i j k l m n o p v1 w) as [(a' & e' & Ea & Ee)|[Ea|Ea]]; [|right; left; exact (H1 _ Ea)|right; right; exact (H1 _ Ea)].
  destruct (H2 a' e' Ea Ee) as [Z N].
  assert (LE : inr s E /\ inr s F).
  { assert (IN : forall x, In x (E :: F :: rest) -> inr s x).
    { intros x Hx. apply upto_In, (Permutation_in _ U). apply in_concat. exists (E :: F :: rest). split; [|exact Hx]. apply (Permutation_in _ (Permutation_sym P)). cbn. auto. }
    split; apply IN; cbn; auto. }
  destruct LE as [LE LF]. pose proof (view_of s FR) as V. rewrite (S2_view s _ _ E F V LE LF) in Z, N. destruct (feq_dec (vdot (ls s E) (raise_r (ls s F)))) as [E0|E0].
  - right. left. apply Z. rewrite E0. reflexivity.
  - left. destruct N as (s' & R & M & _); [eexists; split; [reflexivity|exact E0]|]. exists s'. split; [exact R|exact M].
Qed.
Theorem formulas_solve (a b c d e f g h i j k l m n o p Y X a' e' : K) : let args := [a; b; c; d; e; f; g; h; i; j; k; l; m; n; o; p] in
  expression_for_a args Y X = Ok a' -> expression_for_e args Y X = Ok e' ->
  let P := madd (outer (V2 a' b) (V2 c d)) (outer (V2 e' f) (V2 g h)) in let R := outer (V2 i j) (V2 k l) in
  let Q := madd R (outer (V2 m n) (V2 o p)) in let PQ := (mdet (madd P Q) - mdet P - mdet Q) / 2 in
  mdet (madd P R) = Y /\ PQ * PQ - mdet P * mdet Q = X.
Proof.
  intros args Ea Ee P R Q PQ. destruct (closed_solves a b c d e f g h i j k l m n o p Y X a' e' Ea Ee) as (_ & Q1 & Q2). cbv zeta in Q2. clear Ea Ee args. subst PQ Q R P. split.
  - transitivity (Y + ((d * f * g - c * f * h + d * j * k - c * j * l) * a' - (b * d * i * k + f * h * i * k - b * c * i * l - f * g * i * l - Y + (b * d * g - b * c * h - h * j * k + g * j * l) * e')) * fopp 1).
    + unfold mdet, outer. unfold_vec. cbn [e0 e1]. ring.
    + rewrite Q1. ring.
  - assert (N2 : (2 : K) <> 0) by apply f2_nz. apply (times_cancel (2 * 2)); [apply mul_nz; exact N2|]. rewrite <- Q2. unfold mdet, outer. unfold_vec. cbn [e0 e1]. field. exact N2.
Qed.
End Closed3.
