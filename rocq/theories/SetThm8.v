(* Proofs about SetOne.v, eighth part: tr5 with at least six legs, differences of
   five-brackets. *)
From Coq Require Import List ZArith Bool Lia Ring Field Permutation.
From Verif Require Import Base Fld Particle ParticleSpec ParticleThm Index IndexThm Phase PhaseSpec PhaseThm
  Arcs ArcsSpec ArcsThm Compute ComputeSpec ComputeThm ComputeThm2 ComputeThm3 GramThm DetThm
  SetOne SetSpec SetThm SetThm2 SetThm3 SetThm4 SetThm5 SetThm6 SetThm7.
Import ListNotations.

Lemma free_perm n (L : list Z) : NoDup L -> (forall k, In k L -> (1 <= k <= Z.of_nat n)%Z) -> Permutation (L ++ free_legs n L) (upto n).
Proof.
  intros ND R. apply NoDup_Permutation.
  - apply NoDup_app'; auto using free_legs_NoDup. intros k Hk Hf. apply free_legs_In in Hf. tauto.
  - apply upto_NoDup.
  - intros k. rewrite in_app_iff, free_legs_In, upto_In. split; [intros [H|[H _]]; auto|]. intros H.
    destruct (in_dec Z.eq_dec k L); auto.
Qed.
Lemma entry_labels_ent m : m <> [] -> entry_labels (ent m) = m.
Proof. destruct m as [|i m]; [congruence|]. intros _. unfold entry_labels, ent. cbn [fst snd]. rewrite map_map. cbn [snd]. rewrite map_id. reflexivity. Qed.

Section Sets.
Context {K : Fld}.
Open Scope fld_scope.
Add Field Kset8 : (fth K).
Implicit Types (s : ps K) (r l : Z -> v2 K) (k : Z).

Lemma open_end_view s r l o a ms : view s r l -> entries_ok s ms -> ms <> [] -> inr s a ->
  c_open_end s o a (map ent ms) = Ok (vm (row r l o a) (mprod (oflag o) (map (psum r l) ms))).
Proof.
  intros V H N Ha. unfold c_open_end. destruct (row_view s r l o a V Ha) as (pa & G & R). rewrite G. cbn [rbind].
  assert (M : middle (oflag o) s (map ent ms) = Ok (mprod (oflag o) (map (psum r l) ms))).
  { apply middle_mprod; [apply (view_sound s r l V)|intros E; apply map_eq_nil in E; auto|apply ents_view; auto]. }
  destruct o; cbn [oflag] in M; rewrite M; cbn [rbind orow] in *; rewrite R; reflexivity.
Qed.

(* C39 *)
Theorem set_tr5_thm cv so s ta tb tc td a mb mc md X mode p q rest x y :
  set_like so -> Forall (fun p => fresh p) s -> (6 <= length s)%nat ->
  tr5_rotate 4 ta tb tc td = Ok (leg a, ent mb, ent mc, ent md) ->
  inr s a -> mb <> [] -> mc <> [] -> md <> [] -> legs_of s (mb ++ mc ++ md) -> ~ In a (mb ++ mc ++ md) ->
  free_legs (length s) (a :: mb ++ mc ++ md) = p :: q :: rest ->
  c_open_end s OSq a [ent mb; ent mc; ent md] = Ok x -> c_open_end s OSq a [ent md; ent mc; ent mb] = Ok y ->
  (e0 (vsub x y) <> 0 -> nz (c_S2 s p q) ->
     exists s', set_ cv so (TInv (ITr5 ta tb tc td)) X true mode s = (s', Ok tt) /\
       made s s' (TInv (ITr5 ta tb tc td)) X [a; p; q] /\ keeps_l s s' a /\ keeps_l s s' p /\ keeps_l s s' q) /\
  (e0 (vsub x y) = 0 \/ c_S2 s p q = Ok 0 -> snd (set_ cv so (TInv (ITr5 ta tb tc td)) X true mode s) = Err ZeroDivisionError).
Proof.
  intros SO FR L6 RT Ha Nb Nc Nd Hl Na FL Ex Ey. pose proof (view_of s FR) as V. set (r := rs s) in *. set (l := ls s) in *.
  assert (HB : forall s1, length s1 = length s -> entries_ok s1 [mb; mc; md]).
  { intros s1 L. do 3 (constructor; [split; [assumption|intros k Hk; rewrite L; apply Hl; rewrite !in_app_iff; auto]|]). constructor. }
  assert (HR : entries_ok s [md; mc; mb]) by (do 3 (constructor; [split; [assumption|intros k Hk; apply Hl; rewrite !in_app_iff; auto]|]); constructor).
  destruct (free_two _ _ _ _ _ FL) as (Hp & Hq & Npq & Ip & Iq). change (inr s p) in Hp. change (inr s q) in Hq.
  assert (Np : p <> a) by (intros ->; apply Ip; cbn; auto). assert (Nq : q <> a) by (intros ->; apply Iq; cbn; auto).
  pose proof (open_end_view s r l OSq a [mb; mc; md] V (HB s eq_refl) ltac:(discriminate) Ha) as E1.
  pose proof (open_end_view s r l OSq a [md; mc; mb] V HR ltac:(discriminate) Ha) as E2.
  cbn [map] in E1, E2. rewrite Ex in E1. rewrite Ey in E2. injection E1 as E1. injection E2 as E2. cbn [oflag row] in E1, E2.
  rewrite (S2_view s r l p q V Hp Hq).
  assert (EQ : set_inner cv so (TInv (ITr5 ta tb tc td)) X true mode s =
    bind (lift (divE (X - e1 (vsub x y) * e1 (r a)) (e0 (vsub x y)))) (fun C => bind (on a (assign_r_sp_d (V2 C (e1 (r a))))) (fun _ => fixm cv p q 1)) s).
  { cbn [set_inner]. unfold set_tr5. rewrite (bind_lift _ _ _ _ RT). rewrite bind_get.
    rewrite !entry_labels_ent by auto. change (entry_labels (leg a)) with [a]. change ([a] ++ mb ++ mc ++ md) with (a :: mb ++ mc ++ md).
    rewrite (bind_lift _ _ _ _ (complementary_free so (length s) (a :: mb ++ mc ++ md) SO ltac:(discriminate))). rewrite FL.
    destruct (Nat.ltb_spec (length s) 5); [lia|]. destruct (Nat.eqb_spec (length s) 5); [lia|]. cbn [fst leg].
    rewrite (bind_lift _ _ _ _ Ex), (bind_lift _ _ _ _ Ey).
    destruct (view_get s r l a V Ha) as (pa & G & _ & R1 & _). rewrite (bind_at a _ s pa G), (bind_needo _ _ _ _ R1). reflexivity. }
  assert (P1 : forall C, e0 (vsub x y) <> 0 -> C = (X - e1 (vsub x y) * e1 (r a)) / e0 (vsub x y) -> vdot (vsub x y) (V2 C (e1 (r a))) = X).
  { intros C NZ ->. unfold vdot. cbn [e0 e1]. field. exact NZ. }
  split.
  - intros NZ (w & Ew & Nw). assert (Nw' : vdot (l p) (raise_r (l q)) <> 0) by congruence.
    rewrite (bind_lift _ _ _ _ (divE_ok _ _ NZ)) in EQ. set (C := (X - _) / _) in *. specialize (P1 C NZ eq_refl).
    destruct (on_rd s r l a (V2 C (e1 (r a))) V Ha) as (s1 & Eo & V1 & T1). rewrite (bind_ok _ _ _ _ _ Eo) in EQ.
    destruct (fixm_view cv s1 _ l p q 1 V1 (inr_step s s1 [a] p T1 Hp) (inr_step s s1 [a] q T1 Hq) Npq) as [_ FX]. cbn [Z.eqb Pos.eqb] in FX.
    destruct (FX Nw') as (s' & r' & l' & Ef & V' & T' & TM & -> & O). exists s'.
    pose proof (step_trans _ _ _ _ _ T1 T') as T. cbn [app] in T. assert (Ls : length s' = length s) by apply T.
    assert (Ha' : inr s' a) by apply (inr_step _ _ _ _ T Ha).
    assert (ra : r' a = V2 C (e1 (r a))) by (rewrite O by auto; apply upd_same).
    assert (PS : forall m, (forall k, In k m -> In k (mb ++ mc ++ md)) -> psum r' l m = psum r l m).
    { intros m Hm. apply psum_ext; auto. intros k Hk. apply Hm in Hk. rewrite O; [apply upd_other; intros ->; auto|intros ->; apply Ip; right; auto|intros ->; apply Iq; right; auto]. }
    assert (VAL : c_target s' (TInv (ITr5 ta tb tc td)) = Ok X).
    { unfold c_target, compute, c_tr5. rewrite RT. cbn [rbind fst leg].
      change [ent mb; ent mc; ent md] with (map ent [mb; mc; md]).
      rewrite (chain_view s' r' l OSq a [mb; mc; md] a CAng V' (HB s' Ls)) by (auto; discriminate).
      rewrite (chain_view s' r' l OAng a [mb; mc; md] a CSq V' (HB s' Ls)) by (auto; discriminate). cbn [rbind rmap scalar]. f_equal.
      rewrite <- P1. unfold chv. cbn [row col oflag map]. rewrite !PS by (intros k Hk; rewrite !in_app_iff; auto). rewrite ra, E1, E2.
      cbn [map]. set (B := psum r l mb). set (C' := psum r l mc). set (D := psum r l md). clear.
      cbn [mprod flagm negb]. unfold raise_r, adj; unfold_vec. cbn [e0 e1]. ring. }
    split; [apply set_returns; [rewrite EQ; exact Ef|exact VAL|exact TM|apply (view_fresh _ _ _ V')]|].
    split; [apply (step_made _ _ _ _ _ _ _ VAL TM V' T)|].
    split; [|split]; apply (view_keeps_l s s' r l r' l _ V V'); reflexivity.
  - intros CASE. apply snd_set_err. rewrite EQ. destruct (feq_dec (e0 (vsub x y))) as [Z|NZ].
    + rewrite (divE_0 _ _ Z). reflexivity.
    + destruct CASE as [Z|Z]; [contradiction|]. injection Z as Z. rewrite (bind_lift _ _ _ _ (divE_ok _ _ NZ)).
      destruct (on_rd s r l a (V2 ((X - e1 (vsub x y) * e1 (r a)) / e0 (vsub x y)) (e1 (r a))) V Ha) as (s1 & Eo & V1 & T1). rewrite (bind_ok _ _ _ _ _ Eo).
      destruct (fixm_view cv s1 _ l p q 1 V1 (inr_step s s1 [a] p T1 Hp) (inr_step s s1 [a] q T1 Hq) Npq) as [FX _]. cbn [Z.eqb Pos.eqb] in FX.
      rewrite (FX Z). reflexivity.
Qed.
Theorem set_tr5_rotate_err cv so s ta tb tc td X mode fx e : tr5_rotate 4 ta tb tc td = Err e ->
  snd (set_ cv so (TInv (ITr5 ta tb tc td)) X fx mode s) = Err e.
Proof. intros E. apply snd_set_err. cbn [set_inner]. unfold set_tr5. rewrite (bind_lift_err _ _ _ _ E). reflexivity. Qed.

(* C39, the differences of five-brackets *)
Lemma pm_kills r l k : mv (pm r l k) (r k) = vzero.
Proof. unfold pm, raise_r. unfold_vec. apply v2_ext; cbn; ring. Qed.
Lemma mv_madd (m m' : m2 K) (v : v2 K) : mv (madd m m') v = vadd (mv m v) (mv m' v).
Proof. unfold_vec. apply v2_ext; cbn; ring. Qed.
Lemma five_bracket r l (a b : Z) (m : list Z) (e : Z) :
  chv r l OAng a [[b]; m; [e]] a CSq = vdot (vm (row r l OAng a) (adj (pm r l b))) (mv (psum r l m) (r e)) * vdot (l e) (raise_r (l a)).
Proof.
  unfold chv. cbn [map oflag row col]. rewrite !psum_one. set (M := psum r l m). unfold pm. cbn [mprod flagm negb]. unfold raise_r, adj; unfold_vec. ring.
Qed.
Lemma three_bracket r l (a b : Z) (m : list Z) (e : Z) :
  chv r l OAng a [[b]; m] e CAng = vdot (vm (row r l OAng a) (adj (pm r l b))) (mv (psum r l m) (r e)).
Proof.
  unfold chv. cbn [map oflag row col]. rewrite !psum_one. set (M := psum r l m). unfold pm. cbn [mprod flagm negb]. unfold raise_r, adj; unfold_vec. ring.
Qed.
Theorem set_5B_thm cv so s a b c d e f X mode x y pa pb la lb :
  Forall (fun p => fresh p) s -> total_mom s = mzero -> legs_of s [a; b; c; d; e; f] ->
  ~ In e [a; b; f] -> NoDup [c; d; e] -> ~ In c [a; b; f] -> ~ In d [a; b; f] ->
  c_chain s OAng a [leg b; esum c [d]] e CAng = Ok x -> c_chain s OAng b [leg f; esum c [d]] e CAng = Ok y ->
  getitem s a = Ok pa -> l_d pa = Some la -> getitem s b = Ok pb -> l_d pb = Some lb ->
  (x * e0 la - y * e0 lb <> 0 -> nz (c_S2 s c d) ->
     exists s', set_ cv so (T5B a b c d e f) X true mode s = (s', Ok tt) /\
       made s s' (T5B a b c d e f) X [e; c; d] /\ keeps_r s s' e /\ keeps_l s s' c /\ keeps_l s s' d) /\
  (x * e0 la - y * e0 lb = 0 \/ c_S2 s c d = Ok 0 -> snd (set_ cv so (T5B a b c d e f) X true mode s) = Err ZeroDivisionError).
Proof.
  intros FR TM0 Hl Ne ND Nc Nd Ex Ey Ga Ela Gb Elb. pose proof (view_of s FR) as V. set (r := rs s) in *. set (l := ls s) in *.
  assert (Ha : inr s a) by (apply Hl; cbn; auto). assert (Hb : inr s b) by (apply Hl; cbn; auto). assert (Hc : inr s c) by (apply Hl; cbn; auto 10).
  assert (Hd : inr s d) by (apply Hl; cbn; auto 10). assert (He : inr s e) by (apply Hl; cbn; auto 10). assert (Hf : inr s f) by (apply Hl; cbn; auto 10).
  assert (Ncd : c <> d) by (inversion ND as [|? ? N1 _]; subst; intros ->; apply N1; cbn; auto).
  assert (Nce : c <> e) by (inversion ND as [|? ? N1 _]; subst; intros ->; apply N1; cbn; auto).
  assert (Nde : d <> e) by (inversion ND as [|? ? N1 ND']; inversion ND' as [|? ? N2 _]; subst; intros ->; apply N2; cbn; auto).
  assert (EO : forall s1 (b' : Z), (forall k, In k [b'; c; d] -> inr s1 k) -> entries_ok s1 [[b']; [c; d]]).
  { intros s1 b' H. constructor; [split; [discriminate|intros k Hk; apply H; cbn in *; tauto]|]. constructor; [split; [discriminate|intros k Hk; apply H; cbn in *; tauto]|constructor]. }
  assert (EO3 : forall s1 (b' : Z), (forall k, In k [b'; c; d; e] -> inr s1 k) -> entries_ok s1 [[b']; [c; d]; [e]]).
  { intros s1 b' H. do 3 (constructor; [split; [discriminate|intros k Hk; apply H; cbn in *; tauto]|]). constructor. }
  assert (I4 : forall s1 (b' : Z), inr s1 b' -> inr s1 c -> inr s1 d -> inr s1 e -> forall k, In k [b'; c; d; e] -> inr s1 k) by (intros s1 b' ? ? ? ? k [<-|[<-|[<-|[<-|[]]]]]; auto).
  pose proof (chain_view s r l OAng a [[b]; [c; d]] e CAng V (EO s b (fun k Hk => I4 s b Hb Hc Hd He k ltac:(cbn in *; tauto))) ltac:(discriminate) Ha He eq_refl) as E1.
  pose proof (chain_view s r l OAng b [[f]; [c; d]] e CAng V (EO s f (fun k Hk => I4 s f Hf Hc Hd He k ltac:(cbn in *; tauto))) ltac:(discriminate) Hb He eq_refl) as E2.
  change (map ent [[b]; [c; d]]) with [leg b; esum c [d]] in E1. change (map ent [[f]; [c; d]]) with [leg f; esum c [d]] in E2.
  assert (X1 : x = chv r l OAng a [[b]; [c; d]] e CAng) by congruence. assert (Y1 : y = chv r l OAng b [[f]; [c; d]] e CAng) by congruence. clear E1 E2.
  destruct (view_get s r l a V Ha) as (pa' & Ga' & _ & _ & La & _). assert (pa' = pa) by congruence. subst pa'. assert (LA : la = l a) by congruence.
  destruct (view_get s r l b V Hb) as (pb' & Gb' & _ & _ & Lb & _). assert (pb' = pb) by congruence. subst pb'. assert (LB : lb = l b) by congruence.
  destruct (view_get s r l e V He) as (pe & Ge & _ & _ & _ & _ & Lu & _).
  rewrite (S2_view s r l c d V Hc Hd).
  set (AB := vsub (vscale x la) (vscale y lb)).
  assert (EQ : set_inner cv so (T5B a b c d e f) X true mode s =
    bind (lift (divE (- X - e1 AB * e1 (raise_r (l e))) (e0 AB))) (fun C => bind (on e (assign_l_sp_u (V2 C (e1 (raise_r (l e)))))) (fun _ => fixm cv c d 1)) s).
  { cbn [set_inner]. unfold set_5Bdiff. rewrite bind_get. change [(b, []); ent [c; d]] with [leg b; esum c [d]]. change [(f, []); ent [c; d]] with [leg f; esum c [d]].
    rewrite (bind_lift _ _ _ _ Ex), (bind_at a _ s pa Ga), (bind_needo _ _ _ _ Ela), (bind_lift _ _ _ _ Ey), (bind_at b _ s pb Gb), (bind_needo _ _ _ _ Elb).
    rewrite (bind_at e _ s pe Ge), (bind_needo _ _ _ _ Lu). reflexivity. }
  change (x * e0 la - y * e0 lb) with (e0 AB).
  split.
  - intros NZ (w & Ew & Nw).
    rewrite (bind_lift _ _ _ _ (divE_ok _ _ NZ)) in EQ. set (C := (- X - _) / _) in *.
    destruct (on_lu s r l e (V2 C (e1 (raise_r (l e)))) V He) as (s1 & Eo & V1 & T1). rewrite (bind_ok _ _ _ _ _ Eo) in EQ.
    set (le := lower (V2 C (e1 (raise_r (l e))))) in *.
    assert (Nw' : vdot (upd l e le c) (raise_r (upd l e le d)) <> 0) by (rewrite !upd_other by auto; congruence).
    destruct (fixm_view cv s1 _ _ c d 1 V1 (inr_step s s1 [e] c T1 Hc) (inr_step s s1 [e] d T1 Hd) Ncd) as [_ FX]. cbn [Z.eqb Pos.eqb] in FX.
    destruct (FX Nw') as (s' & r' & l' & Ef & V' & T' & TM & -> & O). exists s'.
    pose proof (step_trans _ _ _ _ _ T1 T') as T. cbn [app] in T. assert (Ls : length s' = length s) by apply T.
    pose proof (fun k => inr_step _ _ _ k T) as IN.
    (* (c+d)|e> is unchanged *)
    set (oth := free_legs (length s) [c; d; e]).
    assert (PO : Permutation ([c; d] ++ e :: oth) (upto (length s))).
    { apply (free_perm (length s) [c; d; e] ND). intros k [<-|[<-|[<-|[]]]]; auto. }
    assert (CD : forall s1 r1 l1, view s1 r1 l1 -> length s1 = length s -> total_mom s1 = mzero -> mv (psum r1 l1 [c; d]) (r1 e) = mv (mopp (psum r1 l1 oth)) (r1 e)).
    { intros s2 r1 l1 Vv Lv Tv. destruct (mom_sum_opp s2 (e :: oth) [c; d]) as (z & Z1 & Z2); [discriminate|discriminate|rewrite Lv; rewrite <- PO; apply Permutation_app_comm|exact Tv|].
      rewrite (mom_sum_view s2 r1 l1) in Z1, Z2; auto; try discriminate.
      - assert (Y1' : psum r1 l1 (e :: oth) = z) by congruence. assert (Y2 : psum r1 l1 [c; d] = mopp z) by congruence. rewrite Y2, <- Y1', psum_cons. pose proof (pm_kills r1 l1 e) as PK. revert PK. generalize (pm r1 l1 e) (psum r1 l1 oth) (r1 e). clear. intros m m' v H.
        assert (H0 := f_equal e0 H). assert (H1 := f_equal e1 H). cbn in H0, H1. unfold_vec. apply v2_ext; cbn.
        + transitivity (- (m00 m' * e0 v + m01 m' * e1 v) - (m00 m * e0 v + m01 m * e1 v)); [ring|]. rewrite H0. ring.
        + transitivity (- (m10 m' * e0 v + m11 m' * e1 v) - (m10 m * e0 v + m11 m * e1 v)); [ring|]. rewrite H1. ring.
      - intros k Hk. rewrite Lv. destruct Hk as [<-|[<-|[]]]; auto.
      - intros k Hk. rewrite Lv. apply upto_In, (Permutation_in _ PO). apply in_app_iff. auto. }
    assert (re : r' e = r e) by (apply O; auto).
    assert (OTH : psum r' (upd l e le) oth = psum r l oth).
    { apply psum_ext; intros k Hk; apply free_legs_In in Hk; destruct Hk as [_ Hk]; cbn in Hk; [apply O; intros ->; auto|apply upd_other; intros ->; auto]. }
    assert (CDE : mv (psum r' (upd l e le) [c; d]) (r' e) = mv (psum r l [c; d]) (r e)).
    { rewrite (CD s' _ _ V' Ls TM), (CD s _ _ V eq_refl TM0), OTH, re. reflexivity. }
    assert (KEEP : forall k, In k [a; b; f] -> r' k = r k /\ upd l e le k = l k).
    { intros k Hk. split; [apply O; intros ->; auto|apply upd_other; intros ->; auto]. }
    destruct (KEEP a) as [Ka1 Ka2]; [cbn; auto|]. destruct (KEEP b) as [Kb1 Kb2]; [cbn; auto|]. destruct (KEEP f) as [Kf1 Kf2]; [cbn; auto|].
    assert (VAL : c_target s' (T5B a b c d e f) = Ok X).
    { unfold c_target. change [(b, []); ent [c; d]; (e, [])] with (map ent [[b]; [c; d]; [e]]). change [(f, []); ent [c; d]; (e, [])] with (map ent [[f]; [c; d]; [e]]).
      rewrite (chain_view s' _ _ OAng a [[b]; [c; d]; [e]] a CSq V' (EO3 s' b (I4 s' b (IN b Hb) (IN c Hc) (IN d Hd) (IN e He))) ltac:(discriminate) (IN a Ha) (IN a Ha) eq_refl).
      rewrite (chain_view s' _ _ OAng b [[f]; [c; d]; [e]] b CSq V' (EO3 s' f (I4 s' f (IN f Hf) (IN c Hc) (IN d Hd) (IN e He))) ltac:(discriminate) (IN b Hb) (IN b Hb) eq_refl).
      cbn [rbind]. f_equal. rewrite !five_bracket, CDE. cbn [row]. rewrite !(pm_ext r l r' (upd l e le)) by auto. rewrite upd_same, Ka1, Ka2, Kb1, Kb2.
      change (raise_r (r a)) with (row r l OAng a). change (raise_r (r b)) with (row r l OAng b). rewrite <- !three_bracket, <- X1, <- Y1, <- LA, <- LB.
      unfold le. transitivity (- vdot AB (V2 C (e1 (raise_r (l e))))).
      - unfold AB, lower, raise_r; unfold_vec. ring.
      - unfold C, vdot. cbn [e0 e1]. field. exact NZ. }
    split; [apply set_returns; [rewrite EQ; exact Ef|exact VAL|exact TM|apply (view_fresh _ _ _ V')]|].
    split; [apply (step_made _ _ _ _ _ _ _ VAL TM V' T)|].
    split; [apply (view_keeps_r s s' r l r' _ _ V V'); exact re|].
    split; apply (view_keeps_l s s' r l r' _ _ V V'); apply upd_other; auto.
  - intros CASE. apply snd_set_err. rewrite EQ. destruct (feq_dec (e0 AB)) as [Z|NZ].
    + rewrite (divE_0 _ _ Z). reflexivity.
    + destruct CASE as [Z|Z]; [contradiction|]. injection Z as Z. rewrite (bind_lift _ _ _ _ (divE_ok _ _ NZ)).
      match goal with |- context [on e (assign_l_sp_u ?w)] => destruct (on_lu s r l e w V He) as (s1 & Eo & V1 & T1) end. rewrite (bind_ok _ _ _ _ _ Eo).
      destruct (fixm_view cv s1 _ _ c d 1 V1 (inr_step s s1 [e] c T1 Hc) (inr_step s s1 [e] d T1 Hd) Ncd) as [FX _]. cbn [Z.eqb Pos.eqb] in FX.
      rewrite FX; [reflexivity|]. rewrite !upd_other by auto. exact Z.
Qed.
End Sets.
