(* Proofs about SetOne.v, seventh part: Omega and Pi, tr5 at six and more legs,
   differences of five-brackets. *)
From Coq Require Import List ZArith Bool Lia Ring Field Permutation.
From Verif Require Import Base Fld Particle ParticleSpec ParticleThm Index IndexThm Phase PhaseSpec PhaseThm
  Arcs ArcsSpec ArcsThm Compute ComputeSpec ComputeThm ComputeThm2 ComputeThm3 GramThm DetThm
  SetOne SetSpec SetThm SetThm2 SetThm3 SetThm4 SetThm5 SetThm6.
Import ListNotations.

Lemma NoDup_remove_disj {A} (l l' : list A) : NoDup (l ++ l') -> NoDup l /\ NoDup l' /\ True.
Proof.
  induction l as [|x l IH]; cbn; intros H; [auto using NoDup_nil|]. inversion H as [|? ? N ND]; subst. destruct (IH ND) as (A1 & A2 & _).
  split; [|auto]. constructor; [|exact A1]. intros I. apply N, in_app_iff. auto.
Qed.
Section Sets.
Context {K : Fld}.
Open Scope fld_scope.
Add Field Kset7 : (fth K).
Implicit Types (s : ps K) (r l : Z -> v2 K) (u v w : v2 K) (k : Z) (X : K) (ms : list (list Z)).

Definition pmv (a b c d : K) : m2 K := outer (raise_r (V2 c d)) (raise_r (V2 a b)).
Lemma omega_poly (a b c d e f g h i j k l m n o p X : K) :
  let A := pmv a b c d in let B := pmv e f g h in let C := pmv i j k l in let D := pmv m n o p in
  let s2 := mdet (madd A B) in let s1 := mdet (madd (madd A B) (madd C D)) in let s0 := mdet (madd C D) in let t := mdet (madd (madd A B) C) in
  2 * s2 * s1 - (s2 + s1 - s0) * t - X =
  om_QA a b c d e f g h i j k l m n o p X * (a * a) + om_QB a b c d e f g h i j k l m n o p X * a + om_QC a b c d e f g h i j k l m n o p X.
Proof.
  cbv zeta. unfold om_QA, om_QB, om_QC, pmv, outer, mdet, raise_r. unfold_vec. cbn [e0 e1]. ring.
Qed.
Lemma pi_poly (a b c d e f g h i j k l m n o p X : K) :
  let A := pmv a b c d in let B := pmv e f g h in let C := pmv i j k l in let D := pmv m n o p in
  mdet (madd (madd A B) C) - mdet (madd (madd A B) D) - X =
  pi_num a b c d e f g h i j k l m n o p X - pi_den a b c d e f g h i j k l m n o p X * a.
Proof.
  cbv zeta. unfold pi_num, pi_den, pmv, outer, mdet, raise_r. unfold_vec. cbn [e0 e1]. ring.
Qed.

Lemma pmv_eq r l k : pm r l k = pmv (e0 (r k)) (e1 (r k)) (e0 (l k)) (e1 (l k)).
Proof. reflexivity. Qed.
Lemma spinors_view {B} s r l k (f : v2 K * v2 K -> QM B) : view s r l -> inr s k -> bind (spinors k) f s = f (r k, l k) s.
Proof.
  intros V H. destruct (view_get s r l k V H) as (p & G & _ & E1 & E2 & _). unfold spinors.
  rewrite (bind_ok _ _ _ s (r k, l k)); [reflexivity|]. rewrite (bind_at k _ s p G), (bind_needo _ _ _ _ E1), (bind_needo _ _ _ _ E2). reflexivity.
Qed.
Lemma set_arc_view cv s r l i j k' (A B : Z) (l2 : list Z) (C D : Z) (l0 : list Z) (E F : Z) (l1 : list Z) (new_a : K -> K -> K -> K -> K -> K -> K -> K -> K -> K -> K -> K -> K -> K -> K -> K -> QM K) res :
  view s r l -> three_arcs (length s) i j k' (C :: D :: l0) (E :: F :: l1) (A :: B :: l2) ->
  new_a (e0 (r A)) (e1 (r A)) (e0 (l A)) (e1 (l A)) (e0 (r B)) (e1 (r B)) (e0 (l B)) (e1 (l B))
        (e0 (r C)) (e1 (r C)) (e0 (l C)) (e1 (l C)) (e0 (r D)) (e1 (r D)) (e0 (l D)) (e1 (l D)) s = (s, res) ->
  (forall e, res = Err e -> set_arc cv [i; j; k'] new_a s = (s, Err e)) /\
  (forall a, res = Ok a ->
     (vdot (l E) (raise_r (l F)) = 0 -> snd (set_arc cv [i; j; k'] new_a s) = Err ZeroDivisionError) /\
     (vdot (l E) (raise_r (l F)) <> 0 -> exists s' r', set_arc cv [i; j; k'] new_a s = (s', Ok tt) /\ view s' r' l /\ step s s' [A; E; F] /\
        total_mom s' = mzero /\ r' A = V2 a (e1 (r A)) /\ forall j, ~ In j [A; E; F] -> r' j = r j)).
Proof.
  intros V TA NA.
  assert (P : Permutation ((C :: D :: l0) ++ (E :: F :: l1) ++ (A :: B :: l2)) (upto (length s))) by apply TA.
  assert (ND : NoDup ((C :: D :: l0) ++ (E :: F :: l1) ++ (A :: B :: l2))) by (apply (Permutation_NoDup (Permutation_sym P)), upto_NoDup).
  assert (R : forall q, In q ((C :: D :: l0) ++ (E :: F :: l1) ++ (A :: B :: l2)) -> inr s q) by (intros q Hq; apply upto_In, (Permutation_in _ P Hq)).
  assert (HA : inr s A) by (apply R; rewrite !in_app_iff; cbn; auto).
  assert (HB : inr s B) by (apply R; rewrite !in_app_iff; cbn; auto).
  assert (HC : inr s C) by (apply R; rewrite !in_app_iff; cbn; auto).
  assert (HD : inr s D) by (apply R; rewrite !in_app_iff; cbn; auto).
  assert (HE : inr s E) by (apply R; rewrite !in_app_iff; cbn; auto).
  assert (HF : inr s F) by (apply R; rewrite !in_app_iff; cbn; auto).
  apply NoDup_remove_disj in ND. destruct ND as (_ & ND & _).
  assert (NEF : E <> F /\ E <> A /\ F <> A).
  { inversion ND as [|? ? N1 ND1]. inversion ND1 as [|? ? N2 _]. subst. cbn in N1, N2. rewrite in_app_iff in N1, N2. cbn in N1, N2.
    repeat split; intros ->; tauto. }
  destruct NEF as (NEF & NEA & NFA).
  assert (EQ : set_arc cv [i; j; k'] new_a s = bind (fun s0 => (s0, res)) (fun a => bind (on A (assign_r_sp_d (V2 a (e1 (r A))))) (fun _ => fixm cv E F 1)) s).
  { unfold set_arc. rewrite bind_get. rewrite (bind_lift _ _ _ _ (three_arcs_arcs (length s) i j k' (Datatypes.S (length s)) _ _ _ (Nat.lt_succ_diag_r _) TA)).
    cbn [first_two]. rewrite !(bind_lift _ _ _ _ eq_refl). cbn [fst snd].
    rewrite (spinors_view s r l A _ V HA), (spinors_view s r l B _ V HB), (spinors_view s r l C _ V HC), (spinors_view s r l D _ V HD). cbn [fst snd].
    unfold bind at 1. rewrite NA. reflexivity. }
  rewrite EQ. split.
  - intros e ->. reflexivity.
  - intros a ->. rewrite (bind_ok _ _ _ s a) by reflexivity.
    destruct (on_rd s r l A (V2 a (e1 (r A))) V HA) as (s1 & E1 & V1 & T1). rewrite (bind_ok _ _ _ _ _ E1).
    pose proof (fun q => inr_step _ _ _ q T1) as I1.
    destruct (fixm_view cv s1 _ l E F 1 V1 (I1 E HE) (I1 F HF) NEF) as [F1 F2]. cbn [Z.eqb Pos.eqb] in F1, F2. split.
    + intros Z. rewrite (F1 Z). reflexivity.
    + intros NZ. destruct (F2 NZ) as (s' & r' & l' & E2 & V2 & T2 & TM & -> & O). exists s', r'.
      split; [exact E2|]. split; [exact V2|]. split; [apply (step_trans _ _ _ _ _ T1 T2)|]. split; [exact TM|]. split.
      * rewrite O by auto. apply upd_same.
      * intros q Hq. cbn in Hq. rewrite O by (intros ->; auto). apply upd_other. intros ->. auto.
Qed.
Lemma arc_legs s i j k' (A B C : list Z) : three_arcs (length s) i j k' A B C -> Permutation (A ++ B ++ C) (upto (length s)) /\ NoDup (A ++ B ++ C) /\ legs_of s (A ++ B ++ C).
Proof.
  intros TA. assert (P : Permutation (A ++ B ++ C) (upto (length s))) by apply TA. split; [exact P|]. split.
  - apply (Permutation_NoDup (Permutation_sym P)), upto_NoDup.
  - intros a Ha; apply upto_In, (Permutation_in _ P Ha).
Qed.
Lemma psum_four r l (A B C D : Z) : psum r l [A; B; C; D] = madd (madd (pm r l A) (pm r l B)) (madd (pm r l C) (pm r l D)).
Proof. unfold psum, msum. cbn [map fold_right]. unfold_vec. apply m2_ext; cbn; ring. Qed.
Lemma psum_two r l (A B : Z) : psum r l [A; B] = madd (pm r l A) (pm r l B).
Proof. unfold psum, msum. cbn [map fold_right]. unfold_vec. apply m2_ext; cbn; ring. Qed.
Lemma psum_three r l (A B C : Z) : psum r l [A; B; C] = madd (madd (pm r l A) (pm r l B)) (pm r l C).
Proof. unfold psum, msum. cbn [map fold_right]. unfold_vec. apply m2_ext; cbn; ring. Qed.

(* C38 *)
Theorem set_Omega_thm cv so s (A B C D E F : Z) (l1 : list Z) X : Forall (fun p => fresh p) s ->
  three_arcs (length s) C E A [C; D] (E :: F :: l1) [A; B] ->
  outcome cv so s (TInv (IOm [C; E; A])) X 1 [A; E; F].
Proof.
  intros FR TA. pose proof (view_of s FR) as V. set (r := rs s) in *. set (l := ls s) in *.
  destruct (arc_legs s _ _ _ _ _ _ TA) as (P & ND & Hl).
  set (f := fun (a b c d e f g h i j k l m n o p : K) => bind (sqrtQ (om_QB a b c d e f g h i j k l m n o p X * om_QB a b c d e f g h i j k l m n o p X - 2 * 2 * om_QA a b c d e f g h i j k l m n o p X * om_QC a b c d e f g h i j k l m n o p X)) (fun q =>
     lift (S := ps K) (divE (- om_QB a b c d e f g h i j k l m n o p X - q) (2 * om_QA a b c d e f g h i j k l m n o p X)))).
  assert (EQ : set_inner cv so (TInv (IOm [C; E; A])) X true 1 s = set_arc cv [C; E; A] f s) by reflexivity.
  assert (NE : forall q, In q [B; C; D] -> ~ In q [A; E; F]).
  { intros q Hq I. assert (ND2 : NoDup ([B; C; D] ++ [A; E; F] ++ l1)).
    { apply (Permutation_NoDup (l := [C; D] ++ (E :: F :: l1) ++ [A; B])); [|exact ND]. cbn [app].
      change (C :: D :: E :: F :: l1 ++ [A; B]) with ([C; D; E; F] ++ l1 ++ [A; B]).
      transitivity ([C; D; E; F] ++ [A; B] ++ l1); [apply Permutation_app_head, Permutation_app_comm|]. cbn [app].
      change (Permutation ([C; D; E; F; A; B] ++ l1) ([B; C; D; A; E; F] ++ l1)). apply Permutation_app_tail.
      transitivity (B :: [C; D; E; F; A]); [apply Permutation_sym, (Permutation_cons_append [C; D; E; F; A] B)|]. do 3 apply perm_skip. apply Permutation_sym, (Permutation_cons_append [E; F] A). }
    apply (NoDup_disj _ _ q ND2 Hq). apply in_app_iff. auto. }
  assert (HAB : forall q, In q [A; B; C; D] -> inr s q). { intros q Hq. apply Hl. rewrite !in_app_iff. cbn in *. tauto. }
  set (ar := f (e0 (r A)) (e1 (r A)) (e0 (l A)) (e1 (l A)) (e0 (r B)) (e1 (r B)) (e0 (l B)) (e1 (l B))
        (e0 (r C)) (e1 (r C)) (e0 (l C)) (e1 (l C)) (e0 (r D)) (e1 (r D)) (e0 (l D)) (e1 (l D))).
  assert (AR : exists res, ar s = (s, res) /\ (res = Err ValueError \/ res = Err ZeroDivisionError \/ exists a, res = Ok a /\
     om_QA a (e1 (r A)) (e0 (l A)) (e1 (l A)) (e0 (r B)) (e1 (r B)) (e0 (l B)) (e1 (l B)) (e0 (r C)) (e1 (r C)) (e0 (l C)) (e1 (l C)) (e0 (r D)) (e1 (r D)) (e0 (l D)) (e1 (l D)) X * (a * a) +
     om_QB a (e1 (r A)) (e0 (l A)) (e1 (l A)) (e0 (r B)) (e1 (r B)) (e0 (l B)) (e1 (l B)) (e0 (r C)) (e1 (r C)) (e0 (l C)) (e1 (l C)) (e0 (r D)) (e1 (r D)) (e0 (l D)) (e1 (l D)) X * a +
     om_QC a (e1 (r A)) (e0 (l A)) (e1 (l A)) (e0 (r B)) (e1 (r B)) (e0 (l B)) (e1 (l B)) (e0 (r C)) (e1 (r C)) (e0 (l C)) (e1 (l C)) (e0 (r D)) (e1 (r D)) (e0 (l D)) (e1 (l D)) X = 0)).
  { unfold ar, f. set (QA := om_QA (e0 (r A)) _ _ _ _ _ _ _ _ _ _ _ _ _ _ _ _). set (QB := om_QB (e0 (r A)) _ _ _ _ _ _ _ _ _ _ _ _ _ _ _ _). set (QC := om_QC (e0 (r A)) _ _ _ _ _ _ _ _ _ _ _ _ _ _ _ _).
    unfold sqrtQ. destruct (fsqrt (QB * QB - 2 * 2 * QA * QC)) as [q|] eqn:SQ; [|eexists; split; [reflexivity|left; reflexivity]].
    rewrite (bind_ok _ _ _ s q) by reflexivity. destruct (feq_dec (2 * QA)) as [Z|NZ].
    - rewrite (divE_0 _ _ Z). eexists. split; [reflexivity|right; left; reflexivity].
    - rewrite (divE_ok _ _ NZ). eexists. split; [reflexivity|]. right. right. eexists. split; [reflexivity|].
      exact (quad_zero' QA QB QC q NZ (fsqrt_ok _ _ _ SQ)). }
  destruct AR as (res & Er & CASES).
  destruct (set_arc_view cv s r l C E A A B [] C D [] E F l1 f res V TA Er) as [G1 G2].
  destruct CASES as [->|[->|(a & -> & ROOT)]].
  - right. left. apply snd_set_err. rewrite EQ, (G1 _ eq_refl). reflexivity.
  - right. right. apply snd_set_err. rewrite EQ, (G1 _ eq_refl). reflexivity.
  - destruct (G2 a eq_refl) as [H1 H2]. destruct (feq_dec (vdot (l E) (raise_r (l F)))) as [Z|NZ].
    + right. right. apply snd_set_err. rewrite EQ. apply H1, Z.
    + left. destruct (H2 NZ) as (s' & r' & Es & V' & T & TM & EA & O). exists s'.
      assert (L : length s' = length s) by apply T.
      assert (Hl' : forall m, (forall q, In q m -> In q ([C; D] ++ (E :: F :: l1) ++ [A; B])) -> legs_of s' m) by (intros m Hm q Hq; rewrite L; apply Hl, Hm, Hq).
      assert (VAL : c_target s' (TInv (IOm [C; E; A])) = Ok X).
      { unfold c_target, compute.
        assert (TA' := TA). rewrite <- L in TA'. pose proof (three_arcs_arcs (length s') C E A (Datatypes.S (length s')) _ _ _ (Nat.lt_succ_diag_r _) TA') as ARC.
        assert (S0 : c_S s' [C; D] = Ok (mdet (psum r' l [C; D]))) by (apply (S_view s' r' l _ V'); [apply Hl'; intros q; rewrite !in_app_iff; tauto|discriminate]).
        assert (S2 : c_S s' [A; B] = Ok (mdet (psum r' l [A; B]))) by (apply (S_view s' r' l _ V'); [apply Hl'; intros q; rewrite !in_app_iff; tauto|discriminate]).
        assert (St : c_S s' ([A; B] ++ [C]) = Ok (mdet (psum r' l ([A; B] ++ [C])))) by (apply (S_view s' r' l _ V'); [apply Hl'; intros q Hq; rewrite !in_app_iff in *; cbn in *; tauto|discriminate]).
        assert (S1 : c_S s' (E :: F :: l1) = Ok (mdet (psum r' l [A; B; C; D]))).
        { destruct (s_complement s' E (F :: l1) A [B; C; D]) as (x & X1 & X2); [|exact TM|].
          - rewrite L. rewrite <- P. cbn [app]. change (Permutation ((E :: F :: l1) ++ [A; B] ++ [C; D]) ([C; D] ++ (E :: F :: l1) ++ [A; B])).
            rewrite app_assoc. apply Permutation_app_comm.
          - rewrite X1, <- X2. apply (S_view s' r' l _ V'); [|discriminate]. apply Hl'. intros q Hq. rewrite !in_app_iff. cbn in *. tauto. }
        rewrite (omega_value s' [C; E; A] [C; D] C [D] (E :: F :: l1) [A; B] _ _ _ _ ARC eq_refl S0 S1 S2 St). cbn [rmap scalar]. f_equal.
        cbn [app]. rewrite psum_four, psum_three, !psum_two, !pmv_eq. rewrite EA. cbn [e0 e1].
        rewrite (O B), (O C), (O D) by (apply NE; cbn; auto).
        pose proof (omega_poly a (e1 (r A)) (e0 (l A)) (e1 (l A)) (e0 (r B)) (e1 (r B)) (e0 (l B)) (e1 (l B)) (e0 (r C)) (e1 (r C)) (e0 (l C)) (e1 (l C)) (e0 (r D)) (e1 (r D)) (e0 (l D)) (e1 (l D)) X) as PL.
        cbv zeta in PL. rewrite ROOT in PL. set (w := _ - _ * _) in *. transitivity (w - X + X); [ring|]. fold w in PL. rewrite PL. ring. }
      split; [apply set_returns; [rewrite EQ; exact Es|exact VAL|exact TM|apply (view_fresh _ _ _ V')]|]. apply (step_made _ _ _ _ _ _ _ VAL TM V' T).
Qed.
Theorem set_Pi_thm cv so s (A B C D : Z) (l0 : list Z) (E F : Z) (l1 : list Z) X : Forall (fun p => fresh p) s ->
  three_arcs (length s) C E A (C :: D :: l0) (E :: F :: l1) [A; B] ->
  outcome cv so s (TInv (IPi [C; E; A])) X 1 [A; E; F] /\ snd (set_ cv so (TInv (IPi [C; E; A])) X true 1 s) <> Err ValueError.
Proof.
  intros FR TA. pose proof (view_of s FR) as V. set (r := rs s) in *. set (l := ls s) in *.
  destruct (arc_legs s _ _ _ _ _ _ TA) as (P & ND & Hl).
  set (f := fun (a b c d e f g h i j k l m n o p : K) => lift (S := ps K) (divE (pi_num a b c d e f g h i j k l m n o p X) (pi_den a b c d e f g h i j k l m n o p X))).
  assert (EQ : set_inner cv so (TInv (IPi [C; E; A])) X true 1 s = set_arc cv [C; E; A] f s) by reflexivity.
  assert (NE : forall q, In q [B; C; D] -> ~ In q [A; E; F]).
  { assert (ND2 : NoDup ([C; D; E; F; A; B] ++ l0 ++ l1)).
    { apply (Permutation_NoDup (l := (C :: D :: l0) ++ (E :: F :: l1) ++ [A; B])); [|exact ND].
      transitivity ([C; D] ++ ([E; F] ++ l1 ++ [A; B]) ++ l0); [cbn [app]; do 2 apply perm_skip; apply (Permutation_app_comm l0 (E :: F :: l1 ++ [A; B]))|].
      transitivity ([C; D] ++ ([E; F] ++ [A; B] ++ l1) ++ l0).
      - apply Permutation_app_head, Permutation_app_tail, Permutation_app_head, Permutation_app_comm.
      - cbn [app]. do 6 apply perm_skip. apply Permutation_app_comm. }
    clear - ND2. assert (U : forall (m : list Z) x, In x m -> ~ In x m -> False) by auto.
    inversion ND2 as [|? ? N1 ND3]. inversion ND3 as [|? ? N2 ND4]. inversion ND4 as [|? ? N3 ND5]. inversion ND5 as [|? ? N4 ND6]. inversion ND6 as [|? ? N5 ND7]. subst. cbn [app In] in N1, N2, N3, N4, N5.
    intros q Hq I. cbn in Hq, I. destruct Hq as [<-|[<-|[<-|[]]]], I as [<-|[<-|[<-|[]]]]; tauto. }
  set (ar := f (e0 (r A)) (e1 (r A)) (e0 (l A)) (e1 (l A)) (e0 (r B)) (e1 (r B)) (e0 (l B)) (e1 (l B))
        (e0 (r C)) (e1 (r C)) (e0 (l C)) (e1 (l C)) (e0 (r D)) (e1 (r D)) (e0 (l D)) (e1 (l D))).
  assert (AR : exists res, ar s = (s, res) /\ (res = Err ZeroDivisionError \/ exists a, res = Ok a /\
     pi_num a (e1 (r A)) (e0 (l A)) (e1 (l A)) (e0 (r B)) (e1 (r B)) (e0 (l B)) (e1 (l B)) (e0 (r C)) (e1 (r C)) (e0 (l C)) (e1 (l C)) (e0 (r D)) (e1 (r D)) (e0 (l D)) (e1 (l D)) X -
     pi_den a (e1 (r A)) (e0 (l A)) (e1 (l A)) (e0 (r B)) (e1 (r B)) (e0 (l B)) (e1 (l B)) (e0 (r C)) (e1 (r C)) (e0 (l C)) (e1 (l C)) (e0 (r D)) (e1 (r D)) (e0 (l D)) (e1 (l D)) X * a = 0)).
  { unfold ar, f. set (N := pi_num (e0 (r A)) _ _ _ _ _ _ _ _ _ _ _ _ _ _ _ _). set (Dn := pi_den (e0 (r A)) _ _ _ _ _ _ _ _ _ _ _ _ _ _ _ _).
    destruct (feq_dec Dn) as [Z|NZ].
    - rewrite (divE_0 _ _ Z). eexists. split; [reflexivity|left; reflexivity].
    - rewrite (divE_ok _ _ NZ). eexists. split; [reflexivity|]. right. exists (N / Dn). split; [reflexivity|].
      change (N - Dn * (N / Dn) = 0). field. exact NZ. }
  destruct AR as (res & Er & CASES).
  destruct (set_arc_view cv s r l C E A A B [] C D l0 E F l1 f res V TA Er) as [G1 G2].
  destruct CASES as [->|(a & -> & ROOT)].
  - assert (G : snd (set_ cv so (TInv (IPi [C; E; A])) X true 1 s) = Err ZeroDivisionError) by (apply snd_set_err; rewrite EQ, (G1 _ eq_refl); reflexivity).
    split; [right; right; exact G|]. rewrite G. discriminate.
  - destruct (G2 a eq_refl) as [H1 H2]. destruct (feq_dec (vdot (l E) (raise_r (l F)))) as [Z|NZ].
    + assert (G : snd (set_ cv so (TInv (IPi [C; E; A])) X true 1 s) = Err ZeroDivisionError) by (apply snd_set_err; rewrite EQ; apply H1, Z).
      split; [right; right; exact G|]. rewrite G. discriminate.
    + destruct (H2 NZ) as (s' & r' & Es & V' & T & TM & EA & O).
      assert (L : length s' = length s) by apply T.
      assert (Hl' : forall m, (forall q, In q m -> In q ((C :: D :: l0) ++ (E :: F :: l1) ++ [A; B])) -> legs_of s' m) by (intros m Hm q Hq; rewrite L; apply Hl, Hm, Hq).
      assert (VAL : c_target s' (TInv (IPi [C; E; A])) = Ok X).
      { unfold c_target, compute.
        assert (TA' := TA). rewrite <- L in TA'. pose proof (three_arcs_arcs (length s') C E A (Datatypes.S (length s')) _ _ _ (Nat.lt_succ_diag_r _) TA') as ARC.
        assert (SC : c_S s' ([A; B] ++ [C]) = Ok (mdet (psum r' l ([A; B] ++ [C])))) by (apply (S_view s' r' l _ V'); [apply Hl'; intros q Hq; rewrite !in_app_iff in *; cbn in *; tauto|discriminate]).
        assert (SD : c_S s' ([A; B] ++ [D]) = Ok (mdet (psum r' l ([A; B] ++ [D])))) by (apply (S_view s' r' l _ V'); [apply Hl'; intros q Hq; rewrite !in_app_iff in *; cbn in *; tauto|discriminate]).
        rewrite (pi_value s' [C; E; A] C D l0 (E :: F :: l1) [A; B] _ _ ARC SC SD). cbn [rmap scalar]. f_equal.
        cbn [app]. rewrite !psum_three, !pmv_eq. rewrite EA. cbn [e0 e1].
        rewrite (O B), (O C), (O D) by (apply NE; cbn; auto).
        pose proof (pi_poly a (e1 (r A)) (e0 (l A)) (e1 (l A)) (e0 (r B)) (e1 (r B)) (e0 (l B)) (e1 (l B)) (e0 (r C)) (e1 (r C)) (e0 (l C)) (e1 (l C)) (e0 (r D)) (e1 (r D)) (e0 (l D)) (e1 (l D)) X) as PL.
        cbv zeta in PL. rewrite ROOT in PL. set (w := mdet _ - mdet _) in *. transitivity (w - X + X); [ring|]. rewrite PL. ring. }
      assert (G : set_ cv so (TInv (IPi [C; E; A])) X true 1 s = (s', Ok tt)) by (apply set_returns; [rewrite EQ; exact Es|exact VAL|exact TM|apply (view_fresh _ _ _ V')]).
      split; [left; exists s'; split; [exact G|apply (step_made _ _ _ _ _ _ _ VAL TM V' T)]|]. rewrite G. discriminate.
Qed.
End Sets.
