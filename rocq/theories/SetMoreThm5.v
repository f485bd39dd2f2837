(* Proofs about SetPairMore.v, fifth part: two three-brackets. *)
From Coq Require Import List ZArith Bool Lia Ring Field Permutation.
From Verif Require Import Base Fld Particle ParticleSpec ParticleThm Index IndexThm Phase PhaseSpec PhaseThm
  Arcs ArcsThm Compute ComputeSpec ComputeThm ComputeThm2 ComputeThm3 DetThm SetOne SetSpec SetThm SetThm2 SetThm3 SetThm4 SetThm5 SetThm7 SetThm8 SetPair SetPairSpec SetPairThm
  SetPairMore SetMoreSpec SetMoreThm SetMoreThm2 SetMoreThm3 SetMoreThm4.
Import ListNotations.

Section More.
Context {K : Fld}.
Open Scope fld_scope.
Add Field Kmo5 : (fth K).
Implicit Types (s : ps K) (r l : Z -> v2 K) (k : Z) (X v w : K) (o : obr) (c : cbr) (ms : list (list Z)).

Lemma three_chain an (a : Z) m (d : Z) : three an a m d = chain_t (o3 an) a [m] d (c3 an).
Proof. destruct an; reflexivity. Qed.
Lemma good_three_chain n an (a : Z) m (d : Z) : good_three n a m d -> good_chain n (o3 an) a [m] d (c3 an).
Proof.
  intros (H1 & H2 & H3 & H4 & H5). unfold good_chain. split; [destruct an; discriminate|]. split; [destruct an; reflexivity|]. split; [discriminate|].
  split; [constructor; auto|auto].
Qed.
Lemma three_value an (a : Z) m (d : Z) s r l : view s r l -> good_three (length s) a m d -> c_target s (three an a m d) = Ok (chv r l (o3 an) a [m] d (c3 an)).
Proof.
  intros V G. rewrite three_chain. destruct (good_entries s _ _ _ _ _ (good_three_chain _ an _ _ _ G)) as (H & Ha & Hd & B & N).
  apply (target_view s r l _ a [m] d _ V H N Ha Hd B).
Qed.
Lemma three_rev an (a : Z) m (d : Z) r l : chv r l (o3 an) a [m] d (c3 an) = chv r l (o3 (negb an)) d [m] a (c3 (negb an)).
Proof.
  induction m as [|j m IH]; [rewrite !three_nil; reflexivity|]. rewrite !three_cons, IH, negb_involutive. f_equal.
  rewrite (br_swap an r l a j), (br_swap (negb an) r l j d). ring.
Qed.
Lemma inner_3B_3B cv so xa xe fuel an0 (s0 : Z) m0 (e0 : Z) v1 an1 (s1 : Z) m1 (e1 : Z) (w2 : K) s : m0 <> [] -> m1 <> [] ->
  set_pair_inner cv so (the_others cv so xa xe (Datatypes.S fuel)) (Datatypes.S fuel) (three an0 s0 m0 e0) v1 (three an1 s1 m1 e1) w2 s =
  pair_3B_3B cv so (Datatypes.S fuel) (an0, s0, m0, e0) v1 (an1, s1, m1, e1) w2 s.
Proof.
  intros N0 N1. transitivity (the_others cv so xa xe (Datatypes.S fuel) (three an0 s0 m0 e0) v1 (three an1 s1 m1 e1) w2 s).
  - cbn [set_pair_inner]. unfold three. destruct an0, an1; reflexivity.
  - unfold the_others, three. destruct an0, an1; cbn [kind_of is_angle];
    rewrite (bind_lift _ _ _ _ (labels_ent m0 N0)), (bind_lift _ _ _ _ (labels_ent m1 N1)); reflexivity.
Qed.

(* ---- two free legs ---- *)
Lemma full3_ok an (a : Z) m (d : Z) : m <> [] -> full3 (an, a, m, d) = Ok tt.
Proof. destruct m; [congruence|reflexivity]. Qed.
Lemma how3_two so n an0 (s0 : Z) m0 (e0 : Z) an1 (s1 : Z) m1 (e1 : Z) p q rest : set_like so -> m0 <> [] -> m1 <> [] ->
  free_legs n ((s0 :: m0 ++ [e0]) ++ s1 :: m1 ++ [e1]) = p :: q :: rest -> how3 so n (an0, s0, m0, e0) (an1, s1, m1, e1) = Ok (Some (p, q, 1%Z)).
Proof.
  intros SO N0 N1 F. unfold how3. rewrite !full3_ok by assumption. cbn [rbind all3]. rewrite (complementary_free so n _ SO) by discriminate.
  cbn [rbind]. rewrite F. reflexivity.
Qed.
Lemma flips3_two so n an0 (s0 : Z) m0 (e0 : Z) an1 (s1 : Z) m1 (e1 : Z) p q rest : set_like so -> m0 <> [] -> m1 <> [] ->
  free_legs n ((s0 :: m0 ++ [e0]) ++ s1 :: m1 ++ [e1]) = p :: q :: rest ->
  flips3 so n (an0, s0, m0, e0) (an1, s1, m1, e1) = Ok ((an0, s0, m0, e0), (an1, s1, m1, e1)).
Proof.
  intros SO N0 N1 F. unfold flips3. rewrite !full3_ok by assumption. cbn [rbind all3].
  rewrite !(complementary_free so n _ SO) by discriminate. cbn [rbind].
  rewrite !(complementary_free so n _ SO) by discriminate. cbn [rbind]. rewrite F. cbn [length Nat.leb].
  unfold can3. rewrite (how3_two so n _ _ _ _ _ _ _ _ p q rest SO N0 N1 F). reflexivity.
Qed.

(* restoring momentum conservation with two free legs *)
Lemma restore_three cv so s an0 (s0 : Z) m0 (e0 : Z) an1 (s1 : Z) m1 (e1 : Z) p q rest v1 (w2 : K) : set_like so -> Forall (fun x => fresh x) s ->
  good_three (length s) s0 m0 e0 -> good_three (length s) s1 m1 e1 ->
  free_legs (length s) ((s0 :: m0 ++ [e0]) ++ s1 :: m1 ++ [e1]) = p :: q :: rest ->
  c_target s (three an0 s0 m0 e0) = Ok v1 -> c_target s (three an1 s1 m1 e1) = Ok w2 ->
  (br false (rs s) (ls s) p q = 0 -> restore3 cv so (an0, s0, m0, e0) (an1, s1, m1, e1) s = (s, Err ZeroDivisionError)) /\
  (br false (rs s) (ls s) p q <> 0 -> exists s', restore3 cv so (an0, s0, m0, e0) (an1, s1, m1, e1) s = (s', Ok tt) /\
     made2 s s' (three an0 s0 m0 e0) v1 (three an1 s1 m1 e1) w2 [p; q]).
Proof.
  intros SO F G0 G1 FL X1 X2.
  assert (H3 : how3 so (length s) (an0, s0, m0, e0) (an1, s1, m1, e1) = Ok (Some (p, q, 1%Z))) by (apply (how3_two so _ _ _ _ _ _ _ _ _ p q rest SO); [apply G0|apply G1|exact FL]).
  unfold restore3. rewrite bind_get, (bind_lift _ _ _ _ H3). cbn [fix_how].
  destruct (free_two _ _ _ _ _ FL) as (Rp & Rq & Npq & _). pose proof (view_of s F) as V.
  destruct (fixm_view cv s _ _ p q 1 V Rp Rq Npq) as [F1 F2]. cbn [Z.eqb Pos.eqb] in F1, F2. change (vdot (ls s p) (raise_r (ls s q))) with (br false (rs s) (ls s) p q) in F1, F2.
  split; [exact F1|]. intros NZ. destruct (F2 NZ) as (s' & _ & _ & E & _).
  destruct (how3_sound so (length s) an0 s0 m0 e0 an1 s1 m1 e1 p q 1 SO) as (_ & _ & CH & (P1 & P2) & (Q1 & Q2)); [|exact H3|].
  { destruct G0 as (_ & _ & _ & ? & ?), G1 as (_ & _ & _ & ? & ?). intros k [<-|[<-|[<-|[<-|[]]]]]; assumption. }
  destruct (fix_restores cv s p q 1 [three an0 s0 m0 e0; three an1 s1 m1 e1] F CH) as [E'|(s2 & E' & RS)].
  - destruct G0 as (? & _ & ? & ? & ?), G1 as (? & _ & ? & ? & ?).
    intros t [<-|[<-|[]]]; right; right; [exists an0, s0, m0, e0|exists an1, s1, m1, e1]; (split; [reflexivity|]); unfold inr, legs_of; auto 10.
  - congruence.
  - assert (s2 = s') by congruence. subst s2. exists s'. split; [exact E|]. destruct RS as (TM & FR & L3 & RE & VS).
    pose proof (Forall_inv VS) as VA. pose proof (Forall_inv (Forall_inv_tail VS)) as VB. cbv beta in VA, VB.
    constructor; auto; [congruence|congruence|]. intros k Hk. apply RE; intros ->; apply Hk; cbn; auto.
Qed.

(* ---- the closed formulas ---- *)
Lemma formula3_dec (lA rB lB rC lC : v2 K) X Y :
  let D := (e0 rB * e1 rC - e0 rC * e1 rB) * (e0 lC * e1 lA - e0 lA * e1 lC) * (e0 lB * e1 lA - e0 lA * e1 lB) in
  let f := formula3 (e0 lA) (e1 lA) (e0 rB) (e1 rB) (e0 lB) (e1 lB) (e0 rC) (e1 rC) (e0 lC) (e1 lC) X Y in
  (D = 0 -> f = Err ZeroDivisionError) /\ (D <> 0 -> exists u, f = Ok u).
Proof.
  destruct lA as [c1 d1], rB as [a6 b6], lB as [c6 d6], rC as [a2 b2'], lC as [c2 d2]. intros D f. cbn [e0 e1] in D, f.
  assert (E1 : - ((a2 * c2 * d1 + a6 * c6 * d1 - a2 * c1 * d2 - a6 * c1 * d6) * (- (b6 * c6 * d1) + b6 * c1 * d6)) +
               (a6 * c6 * d1 - a6 * c1 * d6) * (- (b2' * c2 * d1) - b6 * c6 * d1 + b2' * c1 * d2 + b6 * c1 * d6) = - D) by (unfold D; ring).
  assert (E2 : (- (a6 * b2') + a2 * b6) * (c2 * d1 - c1 * d2) * (c6 * d1 - c1 * d6) = - D) by (unfold D; ring).
  subst f. unfold formula3. rewrite E1, E2. clear E1 E2. split; intros HD.
  - rewrite HD. rewrite divE_0 by ring. reflexivity.
  - assert (HD' : - D <> 0) by (intros E; apply HD; transitivity (- - D); [ring|rewrite E; ring]).
    rewrite divE_ok by exact HD'. cbn [rbind]. rewrite divE_ok by exact HD'. cbn [rbind]. eauto.
Qed.
Lemma swap2 (m : list Z) (x y : Z) : Permutation m [x; y] -> m = [x; y] \/ m = [y; x].
Proof. intros P. apply Permutation_length_2_inv. apply Permutation_sym, P. Qed.
Lemma pyget_ok {A B} (xs : list A) i x (f : A -> QM (K := K) B) s : nth_error xs i = Some x -> bind (pyget xs i) f s = f x s.
Proof. intros E. unfold pyget. rewrite E. reflexivity. Qed.
Lemma distinct_three (A B C : Z) (l : list Z) : A <> B -> A <> C -> B <> C -> (forall x, In x l <-> In x [A; B; C]) -> distinct l = 3%nat.
Proof.
  intros AB AC BC H. unfold distinct. apply Permutation_length with (l' := [A; B; C]). apply NoDup_Permutation.
  - apply NoDup_nodup.
  - repeat constructor; cbn; intuition.
  - intros x. rewrite nodup_In. apply H.
Qed.
Lemma same_set_ok (l l' : list Z) : (forall x, In x l <-> In x l') -> same_set l l' = true.
Proof.
  intros H. unfold same_set. apply andb_true_iff. split; apply forallb_forall; intros x Hx; apply zmem_true, H, Hx.
Qed.
Theorem pair_formula cv so xa xe fuel an0 an1 (A B C : Z) m0 m1 X Y s p q rest :
  set_like so -> Forall (fun x => fresh x) s -> legs_of s [A; B; C] -> A <> B -> A <> C -> B <> C ->
  Permutation m0 [B; C] -> Permutation m1 [A; C] -> free_legs (length s) [A; B; C] = p :: q :: rest ->
  (nz (c_A2 s B C) -> nz (c_S2 s A B) -> nz (c_S2 s A C) -> nz (c_S2 s p q) ->
   exists s', set_pair_all cv so xa xe (Datatypes.S fuel) (three an0 A m0 A) X (three an1 B m1 B) Y s = (s', Ok tt) /\
     made2 s s' (three an0 A m0 A) X (three an1 B m1 B) Y [A; p; q]) /\
  (c_A2 s B C = Ok 0 \/ c_S2 s A B = Ok 0 \/ c_S2 s A C = Ok 0 \/ c_S2 s p q = Ok 0 ->
   snd (set_pair_all cv so xa xe (Datatypes.S fuel) (three an0 A m0 A) X (three an1 B m1 B) Y s) = Err ZeroDivisionError).
Proof.
  intros SO F L AB AC BC P0 P1 FL.
  assert (HA : inr s A) by (apply L; cbn; auto). assert (HB : inr s B) by (apply L; cbn; auto). assert (HC : inr s C) by (apply L; cbn; auto).
  destruct (free_two _ _ _ _ _ FL) as (Rp & Rq & Npq & Np & Nq).
  pose proof (view_of s F) as V. set (r := rs s) in *. set (l := ls s) in *.
  rewrite (A2_view s r l B C V HB HC), (S2_view s r l A B V HA HB), (S2_view s r l A C V HA HC), (S2_view s r l p q V Rp Rq).
  change (vdot (raise_r (r B)) (r C)) with (br true r l B C). change (vdot (l A) (raise_r (l B))) with (br false r l A B).
  change (vdot (l A) (raise_r (l C))) with (br false r l A C). change (vdot (l p) (raise_r (l q))) with (br false r l p q).
  set (d1 := br true r l B C). set (d2 := br false r l A B). set (d3 := br false r l A C). set (d4 := br false r l p q).
  assert (M0 : forall x, In x m0 <-> In x [B; C]) by (intros x; split; apply Permutation_in; [|apply Permutation_sym]; exact P0).
  assert (M1 : forall x, In x m1 <-> In x [A; C]) by (intros x; split; apply Permutation_in; [|apply Permutation_sym]; exact P1).
  assert (N0 : m0 <> []) by (intros ->; apply Permutation_nil in P0; discriminate).
  assert (N1 : m1 <> []) by (intros ->; apply Permutation_nil in P1; discriminate).
  assert (G0 : good_three (length s) A m0 A).
  { split; [exact N0|]. split; [apply (Permutation_NoDup (Permutation_sym P0)); repeat constructor; cbn; intuition|]. split; [|auto].
    intros k Hk. apply L. apply M0 in Hk. cbn in *. tauto. }
  assert (G1 : good_three (length s) B m1 B).
  { split; [exact N1|]. split; [apply (Permutation_NoDup (Permutation_sym P1)); repeat constructor; cbn; intuition|]. split; [|auto].
    intros k Hk. apply L. apply M1 in Hk. cbn in *. tauto. }
  assert (I0 : forall x, In x (A :: m0 ++ [A]) <-> In x [A; B; C]).
  { intros x. cbn [In]. rewrite in_app_iff, M0. cbn. tauto. }
  assert (I1 : forall x, In x (B :: m1 ++ [B]) <-> In x [A; B; C]).
  { intros x. cbn [In]. rewrite in_app_iff, M1. cbn. tauto. }
  assert (FL' : free_legs (length s) ((A :: m0 ++ [A]) ++ B :: m1 ++ [B]) = p :: q :: rest).
  { rewrite <- FL. apply free_legs_ext. intros x. rewrite in_app_iff, I0, I1. tauto. }
  unfold set_pair_all, set_pair. set (inner := set_pair_inner _ _ _ _ _ _ _ _).
  assert (EI : inner s = bind (set_formula3 cv so (an0, A, m0, A) (an1, B, m1, B) X Y) (fun _ => ret PNone) s).
  { unfold inner. rewrite inner_3B_3B by assumption. cbn [pair_3B_3B]. rewrite bind_get.
    rewrite (bind_lift _ _ _ _ (flips3_two so (length s) an0 A m0 A an1 B m1 B p q rest SO N0 N1 FL')). cbn [fst snd].
    assert (AF : after3 (an0, A, m0, A) (an1, B, m1, B) = P3Formula (an0, A, m0, A) (an1, B, m1, B)).
    { unfold after3. cbn [all3]. rewrite (same_set_ok (A :: m0 ++ [A]) (B :: m1 ++ [B])) by (intros x; rewrite I0, I1; tauto).
      rewrite (distinct_three A B C _ AB AC BC I0), (distinct_three A B C _ AB AC BC I1). reflexivity. }
    rewrite AF. reflexivity. }
  assert (EF : set_formula3 cv so (an0, A, m0, A) (an1, B, m1, B) X Y s =
    bind (lift (formula3 (e0 (l A)) (e1 (l A)) (e0 (r B)) (e1 (r B)) (e0 (l B)) (e1 (l B)) (e0 (r C)) (e1 (r C)) (e0 (l C)) (e1 (l C)) X Y))
      (fun vv => bind (on A (assign_r_sp_d vv)) (fun _ => restore3 cv so (an0, A, m0, A) (an1, B, m1, B))) s).
  { unfold set_formula3. rewrite (pyget_ok _ 0 A) by reflexivity.
    destruct (swap2 _ _ _ P0) as [-> | ->].
    - rewrite (pyget_ok _ 1 B), (pyget_ok _ 2 C), (pyget_ok _ 0 B) by reflexivity. rewrite Z.eqb_refl.
      rewrite (spinors_view s r l A _ V HA), (spinors_view s r l B _ V HB), (spinors_view s r l C _ V HC). reflexivity.
    - rewrite (pyget_ok _ 1 C), (pyget_ok _ 2 B), (pyget_ok _ 0 B) by reflexivity. replace (Z.eqb C B) with false by (symmetry; apply Z.eqb_neq; congruence).
      rewrite (spinors_view s r l A _ V HA), (spinors_view s r l B _ V HB), (spinors_view s r l C _ V HC). reflexivity. }
  destruct (formula3_dec (l A) (r B) (l B) (r C) (l C) X Y) as [D0 D1].
  set (D := _ * _ * _) in D0, D1. assert (ED : D = - (d1 * d2 * d3)) by (unfold D, d1, d2, d3, br, raise_r; unfold_vec; ring).
  destruct (feq_dec D) as [ZD|ND].
  { assert (RES : snd (pair_checked inner (fun s t => c_target s t) (three an0 A m0 A) X (three an1 B m1 B) Y s) = Err ZeroDivisionError).
    { apply pair_checked_err. rewrite EI. rewrite (bind_err _ _ _ s ZeroDivisionError); [reflexivity|]. rewrite EF, (bind_lift_err _ _ _ _ (D0 ZD)). reflexivity. }
    split; [|intros _; exact RES]. intros (x1 & E1 & Q1) (x2 & E2 & Q2) (x3 & E3 & Q3) _. exfalso. injection E1 as E1. injection E2 as E2. injection E3 as E3. subst x1 x2 x3.
    assert (ZD' : d1 * d2 * d3 = 0) by (transitivity (- D); [rewrite ED; ring|rewrite ZD; ring]). revert ZD'. apply mul_nz; [apply mul_nz|]; assumption. }
  destruct (D1 ND) as (v & EV).  rewrite (bind_lift _ _ _ _ EV) in EF.
  destruct (on_rd s r l A v V HA) as (s1 & E1 & V1 & T1). rewrite (bind_ok _ _ _ _ _ E1) in EF.
  assert (L1 : length s1 = length s) by apply T1.
  pose proof (formula3_ok (l A) (r B) (l B) (r C) (l C) v X Y EV) as [Q1 Q2]. cbn zeta in Q1, Q2.
  assert (UA : upd r A v A = v) by (unfold upd; rewrite Z.eqb_refl; reflexivity).
  assert (UO : forall x, x <> A -> upd r A v x = r x) by (intros x Hx; unfold upd; apply Z.eqb_neq in Hx; rewrite ?Hx, ?(Z.eqb_sym A x), ?Hx; reflexivity).
  assert (VX : c_target s1 (three an0 A m0 A) = Ok X).
  { rewrite (three_value an0 A m0 A s1 _ _ V1) by (rewrite L1; exact G0). f_equal.
    assert (G : chv (upd r A v) l (o3 true) A [m0] A (c3 true) = X).
    { rewrite (chv_perm _ _ _ A m0 [B; C] [] A _ P0). rewrite !three_cons, three_nil. cbn [negb]. unfold br. rewrite UA, (UO B), (UO C) by congruence. rewrite <- Q1. ring. }
    destruct an0; [exact G|]. rewrite three_rev. exact G. }
  assert (VY : c_target s1 (three an1 B m1 B) = Ok Y).
  { rewrite (three_value an1 B m1 B s1 _ _ V1) by (rewrite L1; exact G1). f_equal.
    assert (G : chv (upd r A v) l (o3 true) B [m1] B (c3 true) = Y).
    { rewrite (chv_perm _ _ _ B m1 [A; C] [] B _ P1). rewrite !three_cons, three_nil. cbn [negb]. unfold br. rewrite UA, (UO B), (UO C) by congruence. rewrite <- Q2. ring. }
    destruct an1; [exact G|]. rewrite three_rev. exact G. }
  destruct (restore_three cv so s1 an0 A m0 A an1 B m1 B p q rest X Y SO (view_fresh _ _ _ V1)) as [R0 R1]; try (rewrite L1; assumption); try assumption.
  assert (EP : br false (rs s1) (ls s1) p q = d4).
  { assert (J : forall x, inr s x -> ls s1 x = l x).
    { intros x Hx. pose proof (view_of s1 (view_fresh _ _ _ V1)) as W. destruct (view_get s1 _ _ x W (inr_step _ _ _ _ T1 Hx)) as (pp & Gp & _ & _ & E2 & _).
      destruct (V1 x pp Gp) as (_ & _ & E3). congruence. }
    unfold d4, br. rewrite (J p Rp), (J q Rq). reflexivity. }
  rewrite EP in R0, R1.
  destruct (feq_dec d4) as [Z4|N4].
  - assert (RES : snd (pair_checked inner (fun s t => c_target s t) (three an0 A m0 A) X (three an1 B m1 B) Y s) = Err ZeroDivisionError).
    { apply pair_checked_err. rewrite EI. rewrite (bind_err _ _ _ s1 ZeroDivisionError); [reflexivity|]. rewrite EF. apply R0, Z4. }
    split; [|intros _; exact RES]. intros _ _ _ (x4 & E4 & Q4). injection E4 as E4. congruence.
  - destruct (R1 N4) as (s2 & E2 & MD).
    split.
    + intros _ _ _ _. exists s2. split.
      * apply pair_checked_ok; try apply MD. rewrite EI, (bind_ok _ _ _ s2 tt); [reflexivity|]. rewrite EF. exact E2.
      * destruct MD. constructor; auto; [congruence|]. intros k Hk. rewrite made2_rest by (intros I; apply Hk; right; exact I).
        apply (proj2 T1). intros [<-|[]]. apply Hk. left. reflexivity.
    + intros H. exfalso. apply ND. rewrite ED. destruct H as [H|[H|[H|H]]]; injection H as H; [| | |contradiction]; rewrite H; ring.
Qed.
End More.
