(* Proofs about SetOne.v, sixth part: Gram determinants, tr5 and differences of
   five-brackets. *)
From Coq Require Import List ZArith Bool Lia Ring Field Permutation.
From Verif Require Import Base Fld Particle ParticleSpec ParticleThm Index IndexThm Phase PhaseSpec PhaseThm
  Arcs ArcsSpec ArcsThm Compute ComputeSpec ComputeThm ComputeThm2 ComputeThm3 GramThm DetThm Cluster ClusterThm
  SetOne SetSpec SetThm SetThm2 SetThm3 SetThm4 SetThm5.
Import ListNotations.

Section Sets.
Context {K : Fld}.
Open Scope fld_scope.
Add Field Kset6 : (fth K).
Implicit Types (s : ps K) (r l : Z -> v2 K) (u v w : v2 K) (k : Z) (X : K) (ms : list (list Z)).

Lemma py_pop_at h k (t : list Z) (i : Z) : i = zlen h -> py_pop (h ++ k :: t) i = Ok (k, h ++ t).
Proof.
  intros ->. unfold py_pop, zlen. rewrite app_length. cbn [length].
  replace (Z.ltb _ 0) with false by (symmetry; apply Z.ltb_ge; lia).
  replace (Z.leb 0 _) with true by (symmetry; apply Z.leb_le; lia).
  replace (Z.ltb _ _) with true by (symmetry; apply Z.ltb_lt; lia). cbn [andb].
  rewrite Nat2Z.id, nth_middle. f_equal. f_equal.
  rewrite firstn_app, firstn_all, Nat.sub_diag. cbn [firstn]. rewrite app_nil_r. f_equal.
  rewrite skipn_app. rewrite (skipn_all2 h) by lia. replace (Datatypes.S (length h) - length h)%nat with 1%nat by lia. reflexivity.
Qed.

Definition polar (P Q : m2 K) : K := mtr (mmul P (adj Q)) / 2.
Lemma consistent_adj (p : particle K) : consistent p -> r2b p = adj (r2 p).
Proof. intros C. apply (cons_r2b _ C). Qed.
Lemma cluster_val cv cs s r l qs k c : cluster cv cs s = Ok qs -> view s r l -> getitem cs k = Ok c -> legs_of s c ->
  exists q, getitem qs k = Ok q /\ r2 q = psum r l c /\ r2b q = adj (psum r l c).
Proof.
  intros E V G H. destruct (cluster_get cv cs s qs k c E G) as (q & Gq & Cq). exists q. split; [exact Gq|].
  destruct (corner_sum_spec cv s c q Cq) as (M & _ & Co & N). rewrite (mom_sum_view s r l c V H N) in M. injection M as M.
  split; [auto|]. rewrite (consistent_adj q (Co (view_sound s r l V))), <- M. reflexivity.
Qed.

(* the value of the determinant with three corners *)
Definition gram3 (P Q : m2 K) : K := polar P Q * polar P Q - mdet P * mdet Q.
Lemma delta_view s r l A B C : view s r l -> legs_of s A -> legs_of s B -> legs_of s C -> A <> [] -> B <> [] -> C <> [] ->
  c_delta s [A; B; C] = Ok (gram3 (psum r l A) (psum r l B)).
Proof.
  intros V HA HB HC NA NB NC. assert (HAB : legs_of s (A ++ B)) by (intros k Hk; apply in_app_iff in Hk as [Hk|Hk]; auto).
  assert (NAB : A ++ B <> []) by (destruct A; [congruence|discriminate]).
  rewrite (delta_three s A B C _ _ _ _ (view_sound s r l V) (S_view s r l A V HA NA) (S_view s r l B V HB NB) (S_view s r l (A ++ B) V HAB NAB) (S_view s r l C V HC NC)).
  f_equal. assert (E : psum r l (A ++ B) = madd (psum r l A) (psum r l B)) by (unfold psum; rewrite map_app; apply msum_app).
  rewrite E. unfold gram3, polar. set (P := psum r l A). set (Q := psum r l B). unfold mdet, adj. unfold_vec. field. apply f2_nz.
Qed.

(* both roles of the popped leg *)
Lemma delta_poly_r (P Q : m2 K) (a b : K) (lu : v2 K) :
  let v2' := mv (adj Q) lu in let v1' := mv (adj P) lu in
  let M := outer lu (V2 a b) in
  gram3 (madd M P) Q =
    e0 v2' * e0 v2' / (2 * 2) * (a * a) + (e0 v2' * b * e1 v2' / 2 + e0 v2' * polar P Q - e0 v1' * polar Q Q) * a +
    (b * b * (e1 v2' * e1 v2') / (2 * 2) + b * e1 v2' * polar P Q - b * e1 v1' * polar Q Q + polar P Q * polar P Q - polar P P * polar Q Q).
Proof. assert (N2 : (2 : K) <> 0) by apply f2_nz. cbv zeta. unfold gram3, polar, outer, mdet, adj. unfold_vec. cbn [e0 e1]. field. repeat split; first [exact N2 | exact (mul_nz 2 2 N2 N2)]. Qed.
Lemma delta_poly_l (P Q : m2 K) (a b : K) (ru : v2 K) :
  let v2' := vm ru (adj Q) in let v1' := vm ru (adj P) in
  let M := outer (V2 a b) ru in
  gram3 (madd M P) Q =
    e0 v2' * e0 v2' / (2 * 2) * (a * a) + (e0 v2' * b * e1 v2' / 2 + e0 v2' * polar P Q - e0 v1' * polar Q Q) * a +
    (b * b * (e1 v2' * e1 v2') / (2 * 2) + b * e1 v2' * polar P Q - b * e1 v1' * polar Q Q + polar P Q * polar P Q - polar P P * polar Q Q).
Proof. assert (N2 : (2 : K) <> 0) by apply f2_nz. cbv zeta. unfold gram3, polar, outer, mdet, adj. unfold_vec. cbn [e0 e1]. field. repeat split; first [exact N2 | exact (mul_nz 2 2 N2 N2)]. Qed.
Lemma quad_zero (A B C q : K) : 2 * A <> 0 -> q * q = B * B - 2 * 2 * A * C -> let a := (- B + q) / (2 * A) in A * (a * a) + B * a + C = 0.
Proof.
  intros N E a. assert (NA : A <> 0) by (intros ->; apply N; ring). assert (N2 : (2 : K) <> 0) by apply f2_nz.
  assert (D : 2 * 2 * A * (A * (a * a) + B * a + C) = 2 * 2 * A * 0).
  { unfold a. transitivity (q * q - B * B + 2 * 2 * A * C); [field; auto|]. rewrite E. ring. }
  apply (mul_cancel (2 * 2 * A) _ _); [repeat apply mul_nz; auto|exact D].
Qed.
Lemma quad_zero' (A B C q : K) : 2 * A <> 0 -> q * q = B * B - 2 * 2 * A * C -> let a := (- B - q) / (2 * A) in A * (a * a) + B * a + C = 0.
Proof.
  intros N E a. assert (E' : (- q) * (- q) = B * B - 2 * 2 * A * C) by (rewrite <- E; ring).
  pose proof (quad_zero A B C (- q) N E') as Q. cbv zeta in Q. unfold a. replace (- B - q) with (- B + - q) by ring. exact Q.
Qed.


(* the root of the determinant *)
Lemma set_Delta_view cv s r l h k t c1 z y x X mode qs : view s r l ->
  NoDup ((h ++ k :: t) ++ c1 ++ (z ++ [y; x])) -> legs_of s ((h ++ k :: t) ++ c1 ++ (z ++ [y; x])) ->
  h ++ t <> [] -> c1 <> [] -> (mode = 2 * zlen h + 1 \/ mode = 2 * zlen h + 2)%Z ->
  cluster cv [h ++ t; c1; z ++ [y; x]] s = Ok qs ->
  let cs := [h ++ k :: t; c1; z ++ [y; x]] in
  (exists s' r' l', set_Delta cv cs X true mode s = (s', Ok tt) /\ view s' r' l' /\ step s s' [k; x; y] /\ total_mom s' = mzero /\
     gram3 (psum r' l' (h ++ k :: t)) (psum r' l' c1) = X) \/
  snd (set_Delta cv cs X true mode s) = Err ValueError \/ snd (set_Delta cv cs X true mode s) = Err ZeroDivisionError.
Proof.
  intros V ND Hl Nh N1 Md CL cs.
  assert (Hk : inr s k) by (apply Hl; rewrite !in_app_iff; cbn; auto).
  assert (Hx : inr s x) by (apply Hl; rewrite !in_app_iff; cbn; auto 10).
  assert (Hy : inr s y) by (apply Hl; rewrite !in_app_iff; cbn; auto 10).
  assert (Hht : legs_of s (h ++ t)) by (intros j Hj; apply Hl; rewrite !in_app_iff in *; cbn; tauto).
  assert (H1 : legs_of s c1) by (intros j Hj; apply Hl; rewrite !in_app_iff in *; cbn; tauto).
  (* disjointness *)
  assert (ND1 : NoDup (k :: (h ++ t) ++ c1 ++ z ++ [y; x])).
  { apply (Permutation_NoDup (l := (h ++ k :: t) ++ c1 ++ (z ++ [y; x]))); [|exact ND].
    rewrite <- !app_assoc. cbn [app]. apply Permutation_sym, Permutation_middle. }
  assert (Kn : ~ In k ((h ++ t) ++ c1 ++ z ++ [y; x])) by (inversion ND1; assumption).
  assert (Xn : forall j, In j [x; y] -> ~ In j (k :: (h ++ t) ++ c1)).
  { intros j Hj I. assert (P : Permutation (k :: (h ++ t) ++ c1 ++ z ++ [y; x]) ((k :: (h ++ t) ++ c1) ++ z ++ [y; x])) by (cbn [app]; rewrite <- !app_assoc; reflexivity).
    pose proof (Permutation_NoDup P ND1) as ND2. apply (NoDup_disj _ _ j ND2 I). apply in_app_iff. right. cbn in *. tauto. }
  assert (Nxy : x <> y).
  { intros ->. assert (ND3 : NoDup ([y; y] ++ (k :: (h ++ t) ++ c1 ++ z))).
    { apply (Permutation_NoDup (l := k :: (h ++ t) ++ c1 ++ z ++ [y; y])); [|exact ND1].
      transitivity ((k :: (h ++ t) ++ c1 ++ z) ++ [y; y]); [cbn [app]; rewrite <- !app_assoc; reflexivity|apply Permutation_app_comm]. }
    inversion ND3 as [|? ? A _]. apply A. left. reflexivity. }
  assert (Mo : ((mode - 1) / 2 = zlen h)%Z).
  { destruct Md as [-> | ->]; [rewrite Z.add_simpl_r, Z.mul_comm; apply Z.div_mul; lia|].
    replace (2 * zlen h + 2 - 1)%Z with (1 + zlen h * 2)%Z by lia. rewrite Z.div_add by lia. reflexivity. }
  destruct (view_get s r l k V Hk) as (pk & Gk & _ & _ & _ & Ek1 & Ek2 & _).
  destruct (cluster_val cv _ s r l qs 2 c1 CL V eq_refl H1) as (q2 & G2 & E2 & E2b).
  destruct (cluster_val cv _ s r l qs 1 (h ++ t) CL V eq_refl Hht) as (q1 & G1 & E1 & E1b).
  set (P := psum r l (h ++ t)) in *. set (Q := psum r l c1) in *.
  set (ru := raise_r (r k)) in *. set (lu := raise_r (l k)) in *.
  set (v2' := if Z.odd mode then mv (adj Q) lu else vm ru (adj Q)).
  set (v1' := if Z.odd mode then mv (adj P) lu else vm ru (adj P)).
  set (b := e1 (if Z.odd mode then ru else lu)).
  set (QA := e0 v2' * e0 v2' / (2 * 2)). set (QB := e0 v2' * b * e1 v2' / 2 + e0 v2' * polar P Q - e0 v1' * polar Q Q).
  set (QC := b * b * (e1 v2' * e1 v2') / (2 * 2) + b * e1 v2' * polar P Q - b * e1 v1' * polar Q Q + polar P Q * polar P Q - polar P P * polar Q Q - X).
  assert (EQ : set_Delta cv cs X true mode s =
     bind (sqrtQ (QB * QB - 2 * 2 * QA * QC)) (fun q => bind (lift (divE (- QB + q) (2 * QA))) (fun a =>
       bind (if Z.odd mode then on k (assign_r_sp_u (V2 a b)) else on k (assign_l_sp_u (V2 a b))) (fun _ => fixm cv x y 1))) s).
  { unfold set_Delta, cs. rewrite (bind_lift _ _ _ _ (py_pop_at h k t _ Mo)). cbn [tl]. rewrite (bind_at k _ s pk Gk), bind_get.
    rewrite (bind_lift _ _ _ _ CL), (bind_lift _ _ _ _ G2), (bind_lift _ _ _ _ G1), (bind_needo _ _ _ _ Ek1), (bind_needo _ _ _ _ Ek2).
    unfold ldot. rewrite E1, E1b, E2, E2b. fold (polar P P). fold (polar P Q). fold (polar Q Q).
    replace (rev (z ++ [y; x])) with (x :: y :: rev z) by (rewrite rev_app_distr; reflexivity). cbn [nth_error].
    replace (rev (z ++ [y; x])) with (x :: y :: rev z) by (rewrite rev_app_distr; reflexivity).
    reflexivity. }
  rewrite EQ. unfold sqrtQ. destruct (fsqrt _) as [q|] eqn:SQ.
  2:{ right. left. reflexivity. }
  rewrite (bind_ok _ _ _ s q) by reflexivity.
  destruct (feq_dec (2 * QA)) as [ZA|NA].
  { right. right. rewrite (bind_lift_err _ _ _ _ (divE_0 _ _ ZA)). reflexivity. }
  rewrite (bind_lift _ _ _ _ (divE_ok _ _ NA)). set (a := (- QB + q) / (2 * QA)).
  pose proof (quad_zero QA QB QC q NA (fsqrt_ok _ _ _ SQ)) as ROOT. cbv zeta in ROOT. fold a in ROOT.
  assert (ST : exists s1 r1 l1, (if Z.odd mode then on k (assign_r_sp_u (V2 a b)) else on k (assign_l_sp_u (V2 a b))) s = (s1, Ok tt) /\
     view s1 r1 l1 /\ step s s1 [k] /\ (forall j, j <> k -> r1 j = r j /\ l1 j = l j) /\
     (if Z.odd mode then l1 = l /\ raise_r (r1 k) = V2 a b else r1 = r /\ raise_r (l1 k) = V2 a b)).
  { destruct (Z.odd mode).
    - destruct (on_ru s r l k (V2 a b) V Hk) as (s1 & E & V1 & T). exists s1, (upd r k (lower (V2 a b))), l.
      split; [exact E|]. split; [exact V1|]. split; [exact T|]. split; [intros j Hj; rewrite upd_other by exact Hj; auto|].
      rewrite upd_same, raise_lower'. auto.
    - destruct (on_lu s r l k (V2 a b) V Hk) as (s1 & E & V1 & T). exists s1, r, (upd l k (lower (V2 a b))).
      split; [exact E|]. split; [exact V1|]. split; [exact T|]. split; [intros j Hj; rewrite upd_other by exact Hj; auto|].
      rewrite upd_same, raise_lower'. auto. }
  destruct ST as (s1 & r1 & l1 & Es & V1 & T1 & O1 & A1). rewrite (bind_ok _ _ _ _ _ Es).
  assert (Hx1 : inr s1 x) by (apply (inr_step _ _ _ x T1); exact Hx). assert (Hy1 : inr s1 y) by (apply (inr_step _ _ _ y T1); exact Hy).
  destruct (fixm_view cv s1 r1 l1 x y 1 V1 Hx1 Hy1 Nxy) as [F1 F2]. cbn [Z.eqb Pos.eqb] in F1, F2.
  destruct (feq_dec (vdot (l1 x) (raise_r (l1 y)))) as [ZP|NP].
  { right. right. rewrite (F1 ZP). reflexivity. }
  left. destruct (F2 NP) as (s' & r' & l' & E' & V' & T' & TM & -> & O'). exists s', r', l1.
  split; [exact E'|]. split; [exact V'|]. split; [apply (step_trans _ _ _ _ _ T1 T')|]. split; [exact TM|].
  assert (KEEP : forall j, In j (k :: (h ++ t) ++ c1) -> r' j = r1 j).
  { intros j Hj. apply O'; intros ->; [apply (Xn x)|apply (Xn y)]; cbn; auto. }
  assert (EP : psum r' l1 (h ++ t) = P).
  { unfold P. transitivity (psum r1 l1 (h ++ t)).
    - apply psum_ext; intros j Hj; [|reflexivity]. apply KEEP. right. apply in_app_iff. auto.
    - apply psum_ext; intros j Hj; apply O1; intros ->; apply Kn; apply in_app_iff; auto. }
  assert (EQ1 : psum r' l1 c1 = Q).
  { unfold Q. transitivity (psum r1 l1 c1).
    - apply psum_ext; intros j Hj; [|reflexivity]. apply KEEP. right. apply in_app_iff. auto.
    - apply psum_ext; intros j Hj; apply O1; intros ->; apply Kn; rewrite !in_app_iff; auto. }
  rewrite (psum_perm r' l1 (h ++ k :: t) (k :: h ++ t)) by (apply Permutation_sym, Permutation_middle).
  rewrite psum_cons, EP, EQ1. unfold pm. rewrite (KEEP k) by (left; reflexivity).
  assert (FIN : QA * (a * a) + QB * a + (QC + X) = X).
  { transitivity (QA * (a * a) + QB * a + QC + X); [ring|]. rewrite ROOT. ring. }
  unfold QA, QB, QC, v1', v2' in FIN. unfold b in *. destruct (Z.odd mode).
  - destruct A1 as [-> ->]. fold lu. pose proof (delta_poly_r P Q a (e1 ru) lu) as PL. cbv zeta in PL. rewrite PL.
    rewrite <- FIN at 1. ring.
  - destruct A1 as [-> ->]. fold ru. pose proof (delta_poly_l P Q a (e1 lu) ru) as PL. cbv zeta in PL. rewrite PL.
    rewrite <- FIN at 1. ring.
Qed.
Lemma snd_set_err cv so t X fx mode s e : snd (set_inner cv so t X fx mode s) = Err e -> snd (set_ cv so t X fx mode s) = Err e.
Proof. destruct (set_inner cv so t X fx mode s) as [s' [[]|e']] eqn:E; cbn; intros H; [discriminate|]. rewrite (set_err _ _ _ _ _ _ _ _ _ E). exact H. Qed.
(* C37 *)
Theorem set_Delta_thm cv so s h k t c1 z y x X mode qs : Forall (fun p => fresh p) s ->
  NoDup ((h ++ k :: t) ++ c1 ++ (z ++ [y; x])) -> legs_of s ((h ++ k :: t) ++ c1 ++ (z ++ [y; x])) ->
  h ++ t <> [] -> c1 <> [] -> (mode = 2 * zlen h + 1 \/ mode = 2 * zlen h + 2)%Z ->
  cluster cv [h ++ t; c1; z ++ [y; x]] s = Ok qs ->
  outcome cv so s (TInv (IDelta [h ++ k :: t; c1; z ++ [y; x]])) X mode [k; x; y].
Proof.
  intros F ND Hl Nh N1 Md CL. pose proof (view_of s F) as V.
  destruct (set_Delta_view cv s _ _ h k t c1 z y x X mode qs V ND Hl Nh N1 Md CL) as [(s' & r' & l' & E & V' & T & TM & C)|[E|E]].
  - left. exists s'.
    assert (VAL : c_target s' (TInv (IDelta [h ++ k :: t; c1; z ++ [y; x]])) = Ok X).
    { unfold c_target, compute. assert (L : length s' = length s) by apply T.
      assert (HL : forall m, (forall j, In j m -> In j ((h ++ k :: t) ++ c1 ++ (z ++ [y; x]))) -> legs_of s' m) by (intros m Hm j Hj; rewrite L; apply Hl, Hm, Hj).
      rewrite (delta_view s' r' l' _ _ _ V').
      - cbn [rmap scalar]. rewrite C. reflexivity.
      - apply HL. intros j Hj. rewrite !in_app_iff in *. tauto.
      - apply HL. intros j Hj. rewrite !in_app_iff in *. tauto.
      - apply HL. intros j Hj. rewrite !in_app_iff in *. tauto.
      - destruct h; discriminate.
      - exact N1.
      - destruct z; discriminate. }
    split; [apply set_returns; auto; apply (view_fresh _ _ _ V')|]. apply (step_made _ _ _ _ _ _ _ VAL TM V' T).
  - right. left. apply snd_set_err. exact E.
  - right. right. apply snd_set_err. exact E.
Qed.
Theorem set_Dijk_thm cv so s i j k' h k t c1 z y x X mode qs : Forall (fun p => fresh p) s ->
  three_arcs (length s) i j k' (h ++ k :: t) c1 (z ++ [y; x]) ->
  h ++ t <> [] -> (mode = 2 * zlen h + 1 \/ mode = 2 * zlen h + 2)%Z ->
  cluster cv [h ++ t; c1; z ++ [y; x]] s = Ok qs ->
  outcome cv so s (TInv (IDelta3 [i; j; k'])) X mode [k; x; y].
Proof.
  intros F TA Nh Md CL. pose proof (view_of s F) as V.
  destruct (arcs_nonempty _ _ _ _ _ _ _ TA) as (_ & N1 & _).
  assert (P : Permutation ((h ++ k :: t) ++ c1 ++ (z ++ [y; x])) (upto (length s))) by apply TA.
  assert (ND : NoDup ((h ++ k :: t) ++ c1 ++ (z ++ [y; x]))) by (apply (Permutation_NoDup (Permutation_sym P)), upto_NoDup).
  assert (Hl : legs_of s ((h ++ k :: t) ++ c1 ++ (z ++ [y; x]))) by (intros a Ha; apply upto_In, (Permutation_in _ P Ha)).
  assert (EQ : set_inner cv so (TInv (IDelta3 [i; j; k'])) X true mode s = set_Delta cv [h ++ k :: t; c1; z ++ [y; x]] X true mode s).
  { unfold set_inner, set_Dijk. rewrite bind_get. rewrite (bind_lift _ _ _ _ (three_arcs_arcs (length s) i j k' (Datatypes.S (length s)) _ _ _ (Nat.lt_succ_diag_r _) TA)). reflexivity. }
  destruct (set_Delta_view cv s _ _ h k t c1 z y x X mode qs V ND Hl Nh N1 Md CL) as [(s' & r' & l' & E & V' & T & TM & C)|[E|E]].
  - left. exists s'.
    assert (VAL : c_target s' (TInv (IDelta3 [i; j; k'])) = Ok X).
    { unfold c_target, compute. assert (L : length s' = length s) by apply T.
      assert (TA' := TA). rewrite <- L in TA'. rewrite (proj1 (delta3_arcs s' i j k' _ _ _ (view_sound _ _ _ V') TA')).
      assert (HL : forall m, (forall j, In j m -> In j ((h ++ k :: t) ++ c1 ++ (z ++ [y; x]))) -> legs_of s' m) by (intros m Hm a Ha; rewrite L; apply Hl, Hm, Ha).
      rewrite (delta_view s' r' l' _ _ _ V').
      - cbn [rmap scalar]. rewrite C. reflexivity.
      - apply HL. intros a Ha. rewrite !in_app_iff in *. tauto.
      - apply HL. intros a Ha. rewrite !in_app_iff in *. tauto.
      - apply HL. intros a Ha. rewrite !in_app_iff in *. tauto.
      - destruct h; discriminate.
      - exact N1.
      - destruct z; discriminate. }
    split; [apply set_returns; auto; [rewrite EQ; exact E|apply (view_fresh _ _ _ V')]|]. apply (step_made _ _ _ _ _ _ _ VAL TM V' T).
  - right. left. apply snd_set_err. rewrite EQ. exact E.
  - right. right. apply snd_set_err. rewrite EQ. exact E.
Qed.
End Sets.
