(* Proofs about SetOne.v, first part: points described by their spinors. *)
From Coq Require Import List ZArith Bool Lia Ring Field Permutation.
From Verif Require Import Base Fld Particle ParticleSpec ParticleThm Index IndexThm Phase PhaseSpec PhaseThm
  Arcs ArcsThm Compute ComputeSpec ComputeThm ComputeThm2 ComputeThm3 GramThm SetOne SetSpec.
Import ListNotations.

Lemma zmem_true x l : zmem x l = true <-> In x l.
Proof.
  unfold zmem. rewrite existsb_exists. split.
  - intros (y & H & E). apply Z.eqb_eq in E. subst. exact H.
  - intros H. exists x. split; [exact H|apply Z.eqb_refl].
Qed.
Lemma zmem_false x l : zmem x l = false <-> ~ In x l.
Proof. rewrite <- zmem_true. destruct (zmem x l); split; congruence. Qed.
Lemma free_legs_In n l k : In k (free_legs n l) <-> (1 <= k <= Z.of_nat n)%Z /\ ~ In k l.
Proof. unfold free_legs. rewrite filter_In, upto_In, negb_true_iff, zmem_false. tauto. Qed.
Lemma free_legs_NoDup n l : NoDup (free_legs n l).
Proof. apply NoDup_filter, upto_NoDup. Qed.
Lemma complementary_free so n l : set_like so -> l <> [] -> complementary so n l = Ok (free_legs n l).
Proof. intros S H. destruct (complementary_spec so n l S) as [_ H2]. apply (H2 H). Qed.
Lemma free_two n l p q rest : free_legs n l = p :: q :: rest ->
  (1 <= p <= Z.of_nat n)%Z /\ (1 <= q <= Z.of_nat n)%Z /\ p <> q /\ ~ In p l /\ ~ In q l.
Proof.
  intros E. pose proof (free_legs_NoDup n l) as N. rewrite E in N.
  assert (P : In p (free_legs n l)) by (rewrite E; cbn; auto).
  assert (Q : In q (free_legs n l)) by (rewrite E; cbn; auto).
  apply free_legs_In in P as [P1 P2]. apply free_legs_In in Q as [Q1 Q2].
  inversion N as [|? ? N1 N2]; subst. split; [exact P1|]. split; [exact Q1|]. split; [|auto].
  intros ->. apply N1. cbn. auto.
Qed.
Lemma free_legs_ext n l l' : (forall k, In k l <-> In k l') -> free_legs n l = free_legs n l'.
Proof.
  intros H. unfold free_legs. apply filter_ext. intros k. f_equal.
  destruct (zmem k l) eqn:E1, (zmem k l') eqn:E2; try reflexivity.
  - apply zmem_true in E1. apply zmem_false in E2. apply H in E1. contradiction.
  - apply zmem_true in E2. apply zmem_false in E1. apply H in E2. contradiction.
Qed.

Section Env.
Context {K : Fld}.
Open Scope fld_scope.
Add Field Kset1 : (fth K).
Implicit Types (s : ps K) (p q : particle K) (r l : Z -> v2 K) (u v w : v2 K) (k : Z).

Definition upd r k v : Z -> v2 K := fun j => if Z.eqb j k then v else r j.
Lemma upd_same r k v : upd r k v k = v.
Proof. unfold upd. rewrite Z.eqb_refl. reflexivity. Qed.
Lemma upd_other r k v j : j <> k -> upd r k v j = r j.
Proof. intros H. unfold upd. destruct (Z.eqb_spec j k); [contradiction|reflexivity]. Qed.
Definition lower v : v2 K := V2 (- e1 v) (e0 v).
Lemma raise_lower' v : raise_r (lower v) = v.
Proof. destruct v. unfold raise_r, lower. cbn. f_equal; ring. Qed.
Lemma lower_raise v : lower (raise_r v) = v.
Proof. destruct v. unfold raise_r, lower. cbn. f_equal; ring. Qed.

(* a fresh point whose spinors are r and l *)
Definition view s r l : Prop := forall k p, getitem s k = Ok p -> fresh p /\ r_d p = Some (r k) /\ l_d p = Some (l k).
Definition step s s' (T : list Z) : Prop :=
  length s' = length s /\ forall j, ~ In j T -> getitem s' j = getitem s j.
Lemma step_refl s T : step s s T. Proof. split; auto. Qed.
Lemma step_trans s1 s2 s3 T T' : step s1 s2 T -> step s2 s3 T' -> step s1 s3 (T ++ T').
Proof.
  intros [L1 H1] [L2 H2]. split; [congruence|]. intros j Hj. rewrite H2, H1; [reflexivity| |]; intros C; apply Hj, in_app_iff; auto.
Qed.
Lemma step_incl s1 s2 T T' : incl T T' -> step s1 s2 T -> step s1 s2 T'.
Proof. intros I [L H]. split; [exact L|]. intros j Hj. apply H. intros C. apply Hj, I, C. Qed.

Definition rs s k : v2 K := match getitem s k with Ok p => match r_d p with Some v => v | None => vzero end | _ => vzero end.
Definition ls s k : v2 K := match getitem s k with Ok p => match l_d p with Some v => v | None => vzero end | _ => vzero end.
Lemma view_of s : Forall (fun p => fresh p) s -> view s (rs s) (ls s).
Proof.
  intros F k p G. rewrite Forall_getitem in F. specialize (F k p G).
  pose proof F as (_ & R & _). apply reproduces_spinors in R as (r & l & Hr & Hl).
  unfold rs, ls. rewrite G, Hr, Hl. auto.
Qed.
Lemma view_fresh s r l : view s r l -> Forall (fun p => fresh p) s.
Proof. intros V. rewrite Forall_getitem. intros k p G. apply (V k p G). Qed.
Lemma view_sound s r l : view s r l -> sound s.
Proof. intros V. apply view_fresh in V. revert V. apply Forall_impl. intros p (C & _). exact C. Qed.
Lemma view_get s r l k : view s r l -> inr s k ->
  exists p, getitem s k = Ok p /\ fresh p /\ r_d p = Some (r k) /\ l_d p = Some (l k) /\
    r_u p = Some (raise_r (r k)) /\ l_u p = Some (raise_r (l k)) /\
    r2 p = outer (raise_r (l k)) (raise_r (r k)) /\ r2b p = outer (r k) (l k).
Proof.
  intros V H. apply getitem_length in H as [p G]. destruct (V k p G) as (F & Hr & Hl).
  exists p. pose proof F as (_ & (r' & l' & E1 & E2 & E3 & E4 & E5 & E6) & _).
  assert (r' = r k) by congruence. assert (l' = l k) by congruence. subst. auto 10.
Qed.
Lemma view_ext s r l r' l' : view s r l -> (forall k, inr s k -> r' k = r k) -> (forall k, inr s k -> l' k = l k) -> view s r' l'.
Proof.
  intros V H1 H2 k p G. assert (I : inr s k) by (apply getitem_length; eauto).
  rewrite (H1 k I), (H2 k I). apply V, G.
Qed.
Lemma view_rs s r l k : view s r l -> inr s k -> rs s k = r k /\ ls s k = l k.
Proof.
  intros V H. destruct (view_get s r l k V H) as (p & G & _ & E1 & E2 & _). unfold rs, ls. rewrite G, E1, E2. auto.
Qed.
(* the halves that an environment keeps are kept *)
Lemma view_keeps_r s s' r l r' l' k : view s r l -> view s' r' l' -> r' k = r k -> keeps_r s s' k.
Proof. intros V V' E p p' G G'. destruct (V k p G) as (_ & E1 & _). destruct (V' k p' G') as (_ & E2 & _). congruence. Qed.
Lemma view_keeps_l s s' r l r' l' k : view s r l -> view s' r' l' -> l' k = l k -> keeps_l s s' k.
Proof. intros V V' E p p' G G'. destruct (V k p G) as (_ & _ & E1). destruct (V' k p' G') as (_ & _ & E2). congruence. Qed.

(* assigning a spinor *)
Lemma on_view s r l k (m : PM unit) v q : view s r l -> getitem s k = Ok q ->
  forall q' r' l', m q = (q', Ok tt) -> fresh q' -> r_d q' = Some (r' k) -> l_d q' = Some (l' k) ->
  (forall j, j <> k -> r' j = r j) -> (forall j, j <> k -> l' j = l j) ->
  exists s', on k m s = (s', Ok tt) /\ view s' r' l' /\ step s s' [k].
Proof.
  intros V G q' r' l' E F Hr Hl Or Ol. destruct (on_eq k m s q G) as (s' & E1 & E2). rewrite E in E1, E2. cbn [fst snd] in *.
  destruct (setitem_laws s k q' q G) as (s'' & E3 & G' & L & O & _). assert (s'' = s') by congruence. subst s''.
  exists s'. split; [exact E1|]. split.
  - intros j p Gj. destruct (Z.eq_dec j k) as [->|N].
    + assert (p = q') by congruence. subst p. auto.
    + rewrite (O j N) in Gj. destruct (V j p Gj) as (Fp & H1 & H2). rewrite (Or j N), (Ol j N). auto.
  - split; [exact L|]. intros j Hj. apply O. intros ->. apply Hj. left. reflexivity.
Qed.
Ltac on_tac V H :=
  destruct (view_get _ _ _ _ V H) as (q & G & F & Hr & Hl & _);
  pose proof (assign_spinor_spec q _ _) as A.
Lemma fresh_good q : consistent q -> lsq q = 0 -> reproduces q -> fresh q.
Proof. intros. split; auto. Qed.

Lemma on_rd s r l k v : view s r l -> inr s k ->
  exists s', on k (assign_r_sp_d v) s = (s', Ok tt) /\ view s' (upd r k v) l /\ step s s' [k].
Proof.
  intros V H. destruct (view_get s r l k V H) as (q & G & (C & _) & Hr & Hl & _).
  destruct (assign_spinor_spec q (r k) (l k) v C Hr Hl) as ((q' & E & Er & El & _ & Gc & Gl & Gr & _) & _ & _ & _).
  apply (on_view s r l k (assign_r_sp_d v) v q V G q' (upd r k v) l E); auto using fresh_good.
  - rewrite upd_same; exact Er.
  - congruence.
  - intros j N. apply upd_other, N.
Qed.
Lemma on_ru s r l k v : view s r l -> inr s k ->
  exists s', on k (assign_r_sp_u v) s = (s', Ok tt) /\ view s' (upd r k (lower v)) l /\ step s s' [k].
Proof.
  intros V H. destruct (view_get s r l k V H) as (q & G & (C & _) & Hr & Hl & _).
  destruct (assign_spinor_spec q (r k) (l k) v C Hr Hl) as (_ & (q' & E & Er & El & _ & Gc & Gl & Gr & _) & _ & _).
  apply (on_view s r l k (assign_r_sp_u v) v q V G q' (upd r k (lower v)) l E); auto using fresh_good.
  - rewrite upd_same. destruct Gr as (r' & l' & E1 & _ & _ & _ & E5 & _). rewrite E1. f_equal.
    rewrite <- (lower_raise r'). f_equal. congruence.
  - congruence.
  - intros j N. apply upd_other, N.
Qed.
Lemma on_ld s r l k v : view s r l -> inr s k ->
  exists s', on k (assign_l_sp_d v) s = (s', Ok tt) /\ view s' r (upd l k v) /\ step s s' [k].
Proof.
  intros V H. destruct (view_get s r l k V H) as (q & G & (C & _) & Hr & Hl & _).
  destruct (assign_spinor_spec q (r k) (l k) v C Hr Hl) as (_ & _ & (q' & E & Er & El & _ & Gc & Gl & Gr & _) & _).
  apply (on_view s r l k (assign_l_sp_d v) v q V G q' r (upd l k v) E); auto using fresh_good.
  - congruence.
  - rewrite upd_same; exact Er.
  - intros j N. apply upd_other, N.
Qed.
Lemma on_lu s r l k v : view s r l -> inr s k ->
  exists s', on k (assign_l_sp_u v) s = (s', Ok tt) /\ view s' r (upd l k (lower v)) /\ step s s' [k].
Proof.
  intros V H. destruct (view_get s r l k V H) as (q & G & (C & _) & Hr & Hl & _).
  destruct (assign_spinor_spec q (r k) (l k) v C Hr Hl) as (_ & _ & _ & (q' & E & Er & El & _ & Gc & Gl & Gr & _)).
  apply (on_view s r l k (assign_l_sp_u v) v q V G q' r (upd l k (lower v)) E); auto using fresh_good.
  - congruence.
  - rewrite upd_same. destruct Gr as (r' & l' & _ & E2 & _ & _ & _ & E6). rewrite E2. f_equal.
    rewrite <- (lower_raise l'). f_equal. congruence.
  - intros j N. apply upd_other, N.
Qed.

(* momentum conservation *)
Lemma fixm_eq cv (p q : Z) axis s : p <> 0%Z -> q <> 0%Z -> fixm cv p q axis s = fix_mom_cons_complex p q axis s.
Proof.
  intros Np Nq. unfold fixm, fix_mom_cons.
  apply Z.eqb_neq in Np. apply Z.eqb_neq in Nq. rewrite Np, Nq. reflexivity.
Qed.
Lemma fixm_view cv s r l (p q : Z) axis : view s r l -> inr s p -> inr s q -> p <> q ->
  let d := if Z.eqb axis 1 then vdot (l p) (raise_r (l q)) else vdot (raise_r (r p)) (r q) in
  (d = 0 -> fixm cv p q axis s = (s, Err ZeroDivisionError)) /\
  (d <> 0 -> exists s' r' l', fixm cv p q axis s = (s', Ok tt) /\ view s' r' l' /\ step s s' [p; q] /\
     total_mom s' = mzero /\
     (if Z.eqb axis 1 then l' = l /\ (forall j, j <> p -> j <> q -> r' j = r j)
      else r' = r /\ (forall j, j <> p -> j <> q -> l' j = l j))).
Proof.
  intros V Hp Hq N d.
  destruct (view_get s r l p V Hp) as (P & GP & (CP & _) & rP & lP & ruP & luP & _).
  destruct (view_get s r l q V Hq) as (Q & GQ & (CQ & _) & rQ & lQ & ruQ & luQ & _).
  assert (PV : pivot axis P Q = Some d).
  { unfold pivot, d. rewrite lP, luQ, ruP, rQ. destruct (Z.eqb axis 1); reflexivity. }
  rewrite fixm_eq; [|destruct Hp; lia|destruct Hq; lia].
  split; intros D.
  - rewrite D in PV. apply (fix_complex_zero s p q axis P Q GP GQ CQ PV).
  - destruct (fix_complex_ok s p q axis P Q (r p) (l p) (r q) (l q) d N GP GQ CP CQ rP lP rQ lQ PV D)
      as (s' & P' & Q' & E & T & [L U] & GP' & GQ' & [CP' RP'] & [CQ' RQ'] & ZP & ZQ & _ & _ & Kp).
    pose proof RP' as (rp' & lp' & EP1 & EP2 & _). pose proof RQ' as (rq' & lq' & EQ1 & EQ2 & _).
    destruct (Z.eqb axis 1) eqn:Ax.
    + exists s', (upd (upd r p rp') q rq'), l. split; [exact E|]. split; [|split; [|split; [exact T|split; [reflexivity|]]]].
      * intros j x G. destruct (Z.eq_dec j q) as [->|Nq]; [|destruct (Z.eq_dec j p) as [->|Np]].
        -- assert (x = Q') by congruence. subst x. rewrite upd_same. split; [apply fresh_good; auto|]. split; [exact EQ1|].
           destruct Kp as (_ & K2 & _). congruence.
        -- assert (x = P') by congruence. subst x. rewrite upd_other, upd_same by auto. split; [apply fresh_good; auto|]. split; [exact EP1|].
           destruct Kp as (K2 & _). congruence.
        -- rewrite (U j Np Nq) in G. rewrite !upd_other by auto. apply V, G.
      * split; [exact L|]. intros j Hj. apply U; intros ->; apply Hj; cbn; auto.
      * intros j Np Nq. rewrite !upd_other by auto. reflexivity.
    + exists s', r, (upd (upd l p lp') q lq'). split; [exact E|]. split; [|split; [|split; [exact T|split; [reflexivity|]]]].
      * intros j x G. destruct (Z.eq_dec j q) as [->|Nq]; [|destruct (Z.eq_dec j p) as [->|Np]].
        -- assert (x = Q') by congruence. subst x. rewrite upd_same. split; [apply fresh_good; auto|].
           destruct Kp as (_ & K2 & _). split; [congruence|]. exact EQ2.
        -- assert (x = P') by congruence. subst x. rewrite upd_other, upd_same by auto. split; [apply fresh_good; auto|].
           destruct Kp as (K2 & _). split; [congruence|]. exact EP2.
        -- rewrite (U j Np Nq) in G. rewrite !upd_other by auto. apply V, G.
      * split; [exact L|]. intros j Hj. apply U; intros ->; apply Hj; cbn; auto.
      * intros j Np Nq. rewrite !upd_other by auto. reflexivity.
Qed.

(* ---- values of strings in terms of the spinors ---- *)
Definition pm r l k : m2 K := outer (raise_r (l k)) (raise_r (r k)).
Definition psum r l (m : list Z) : m2 K := msum (map (pm r l) m).
Lemma mom_view s r l k : view s r l -> inr s k -> mom false s k = Ok (pm r l k).
Proof. intros V H. destruct (view_get s r l k V H) as (p & G & _ & _ & _ & _ & _ & E & _). unfold mom. rewrite G. cbn. rewrite E. reflexivity. Qed.
Lemma rmapM_all {A B} (f : A -> result B) (g : A -> B) (xs : list A) : (forall x, In x xs -> f x = Ok (g x)) -> rmapM f xs = Ok (map g xs).
Proof.
  induction xs as [|x xs IH]; intros H; [reflexivity|]. cbn [rmapM map]. rewrite (H x) by (left; reflexivity).
  rewrite IH by (intros y Hy; apply H; right; exact Hy). reflexivity.
Qed.
Lemma mom_sum_view s r l (m : list Z) : view s r l -> legs_of s m -> m <> [] -> mom_sum false s m = Ok (psum r l m).
Proof.
  intros V H N. unfold mom_sum. destruct m as [|k m]; [congruence|].
  rewrite (rmapM_all _ (pm r l)); [reflexivity|]. intros x Hx. apply mom_view; [exact V|]. apply H, Hx.
Qed.
Lemma mom_sum_view_b b s r l (m : list Z) : view s r l -> legs_of s m -> m <> [] -> mom_sum b s m = Ok (flagm b (psum r l m)).
Proof. intros V H N. rewrite mom_sum_flag by (apply (view_sound s r l V)). rewrite (mom_sum_view s r l m V H N). reflexivity. Qed.
Lemma ent_esum i m : ent (i :: m) = esum i m.
Proof. reflexivity. Qed.
Lemma ent_view s r l (m : list Z) : view s r l -> legs_of s m -> m <> [] -> entry_val false s (ent m) = Ok (psum r l m).
Proof.
  intros V H N. destruct m as [|i m]; [congruence|]. rewrite ent_esum, entry_esum. apply mom_sum_view; auto.
Qed.
Lemma S_view s r l (m : list Z) : view s r l -> legs_of s m -> m <> [] -> c_S s m = Ok (mdet (psum r l m)).
Proof. intros V H N. apply S_value, mom_sum_view; auto. Qed.

Definition row r l (o : obr) k : v2 K := match o with OAng => raise_r (r k) | _ => l k end.
Definition col r l (c : cbr) k : v2 K := match c with CAng => r k | _ => raise_r (l k) end.
Definition chv r l o (a : Z) (ms : list (list Z)) (d : Z) c : K :=
  vdot (vm (row r l o a) (mprod (oflag o) (map (psum r l) ms))) (col r l c d).
Lemma ents_view s r l ms : view s r l -> entries_ok s ms -> rmapM (entry_val false s) (map ent ms) = Ok (map (psum r l) ms).
Proof.
  intros V H. rewrite rmapM_map. apply rmapM_all. intros m Hm. unfold entries_ok in H. rewrite Forall_forall in H.
  destruct (H m Hm) as [N L]. apply ent_view; auto.
Qed.
Lemma row_view s r l o k : view s r l -> inr s k -> exists p, getitem s k = Ok p /\ orow o p = Some (row r l o k).
Proof.
  intros V H. destruct (view_get s r l k V H) as (p & G & _ & E1 & E2 & E3 & E4 & _). exists p. split; [exact G|].
  destruct o; cbn; assumption.
Qed.
Lemma col_view s r l c k : view s r l -> inr s k -> exists p, getitem s k = Ok p /\ ccol c p = Some (col r l c k).
Proof.
  intros V H. destruct (view_get s r l k V H) as (p & G & _ & E1 & E2 & E3 & E4 & _). exists p. split; [exact G|].
  destruct c; cbn; assumption.
Qed.
Lemma chain_view s r l o a ms d c : view s r l -> entries_ok s ms -> ms <> [] -> inr s a -> inr s d ->
  bracket_ok o (length ms) c = true -> c_chain s o a (map ent ms) d c = Ok (chv r l o a ms d c).
Proof.
  intros V H N Ha Hd B.
  destruct (row_view s r l o a V Ha) as (pa & Ga & Ra). destruct (col_view s r l c d V Hd) as (pd & Gd & Rd).
  apply (chain_make s o a (map ent ms) d c pa pd (map (psum r l) ms)); auto.
  - apply sound_barred, (view_sound s r l V).
  - intros E. apply map_eq_nil in E. auto.
  - rewrite map_length. exact B.
  - apply ents_view; auto.
Qed.
Lemma A2_view s r l a b : view s r l -> inr s a -> inr s b -> c_A2 s a b = Ok (vdot (raise_r (r a)) (r b)).
Proof.
  intros V Ha Hb. destruct (view_get s r l a V Ha) as (pa & Ga & _ & E1 & _). destruct (view_get s r l b V Hb) as (pb & Gb & _ & E2 & _).
  apply (A2_make s a b pa pb); auto. apply (view_sound s r l V).
Qed.
Lemma S2_view s r l a b : view s r l -> inr s a -> inr s b -> c_S2 s a b = Ok (vdot (l a) (raise_r (l b))).
Proof.
  intros V Ha Hb. destruct (view_get s r l a V Ha) as (pa & Ga & _ & _ & E1 & _). destruct (view_get s r l b V Hb) as (pb & Gb & _ & _ & E2 & _).
  apply (S2_make s a b pa pb); auto. apply (view_sound s r l V).
Qed.
Lemma rest_mat_view s r l ms : view s r l -> entries_ok s ms -> ms <> [] ->
  forall b, rest_mat b s ms = Ok (mprod b (map (psum r l) ms)).
Proof.
  intros V. induction ms as [|m ms IH]; intros H N b; [congruence|]. inversion H as [|? ? [Nm Lm] H']; subst.
  cbn [rest_mat]. destruct ms as [|m' ms].
  - rewrite (mom_sum_view_b b s r l m V Lm Nm). cbn [map mprod]. rewrite mmul_1_r. reflexivity.
  - rewrite (mom_sum_view_b b s r l m V Lm Nm). cbn [rbind]. rewrite IH; [|exact H'|discriminate]. reflexivity.
Qed.
(* frames *)
Lemma pm_ext r l r' l' k : r' k = r k -> l' k = l k -> pm r' l' k = pm r l k.
Proof. intros E1 E2. unfold pm. rewrite E1, E2. reflexivity. Qed.
Lemma psum_ext r l r' l' m : (forall k, In k m -> r' k = r k) -> (forall k, In k m -> l' k = l k) -> psum r' l' m = psum r l m.
Proof. intros E1 E2. unfold psum. f_equal. apply map_ext_in. intros k Hk. apply pm_ext; auto. Qed.
Lemma psums_ext r l r' l' ms : (forall k, In k (concat ms) -> r' k = r k) -> (forall k, In k (concat ms) -> l' k = l k) ->
  map (psum r' l') ms = map (psum r l) ms.
Proof.
  intros E1 E2. apply map_ext_in. intros m Hm. apply psum_ext; intros k Hk; [apply E1|apply E2]; apply in_concat; eauto.
Qed.
Lemma chv_ext r l r' l' o a ms d c : (forall k, In k (a :: concat ms ++ [d]) -> r' k = r k) ->
  (forall k, In k (a :: concat ms ++ [d]) -> l' k = l k) -> chv r' l' o a ms d c = chv r l o a ms d c.
Proof.
  intros E1 E2. unfold chv. rewrite (psums_ext r l r' l' ms).
  2: intros k Hk; apply E1; right; apply in_app_iff; auto.
  2: intros k Hk; apply E2; right; apply in_app_iff; auto.
  assert (row r' l' o a = row r l o a) as ->. { unfold row. rewrite (E1 a), (E2 a) by (left; reflexivity). reflexivity. }
  assert (col r' l' c d = col r l c d) as ->. { unfold col. rewrite (E1 d), (E2 d) by (right; apply in_app_iff; right; left; reflexivity). reflexivity. }
  reflexivity.
Qed.
Lemma psum_perm r l m m' : Permutation m m' -> psum r l m = psum r l m'.
Proof. intros P. unfold psum. apply msum_perm, Permutation_map, P. Qed.
Lemma psum_cons r l k m : psum r l (k :: m) = madd (pm r l k) (psum r l m).
Proof. reflexivity. Qed.
End Env.
