(* Proofs about SetOne.v, third part: chains. *)
From Coq Require Import List ZArith Bool Lia Ring Field Permutation.
From Verif Require Import Base Fld Particle ParticleSpec ParticleThm Index IndexThm Phase PhaseSpec PhaseThm
  Arcs ArcsThm Compute ComputeSpec ComputeThm ComputeThm2 ComputeThm3 GramThm SetOne SetSpec SetThm SetThm2.
Import ListNotations.

Section Chains.
Context {K : Fld}.
Open Scope fld_scope.
Add Field Kset3 : (fth K).
Implicit Types (s : ps K) (r l : Z -> v2 K) (u v w : v2 K) (k : Z) (X : K) (o : obr) (c : cbr) (ms : list (list Z)).

Definition str_ok o ms c : Prop := o <> OLt /\ c = end_of o (length ms).
Lemma str_bracket o ms c : str_ok o ms c -> bracket_ok o (length ms) c = true.
Proof. intros [H1 H2]. apply kind_end. auto. Qed.
Lemma is_angle_oflag o : is_angle o = oflag o.
Proof. destruct o; reflexivity. Qed.

Definition wcol r l o ms d c : v2 K := mv (mprod (oflag o) (map (psum r l) ms)) (col r l c d).
Lemma chv_wcol r l o a ms d c : chv r l o a ms d c = vdot (row r l o a) (wcol r l o ms d c).
Proof. unfold chv, wcol. apply vdot_vm. Qed.
Lemma open_begin_view s r l o ms d c : view s r l -> entries_ok s ms -> ms <> [] -> inr s d -> str_ok o ms c ->
  c_open_begin s (map ent ms) d c = Ok (wcol r l o ms d c).
Proof.
  intros V H N Hd [No Ec]. unfold c_open_begin.
  replace (match c with CAng => Nat.even (length (map ent ms)) | CGt => false | CSq => Nat.odd (length (map ent ms)) end) with (oflag o).
  2:{ rewrite map_length. subst c. unfold end_of. rewrite <- Nat.negb_even. destruct o; try congruence; destruct (Nat.even (length ms)); reflexivity. }
  rewrite (middle_mprod (oflag o) s (map ent ms) (map (psum r l) ms)).
  2: apply (view_sound s r l V). 2: intros E; apply map_eq_nil in E; auto. 2: apply ents_view; auto.
  cbn [rbind]. destruct (col_view s r l c d V Hd) as (pd & G & E). rewrite G. cbn [rbind].
  unfold wcol. destruct c; cbn [ccol] in E; rewrite E; reflexivity.
Qed.
Lemma wcol_ext r l r' l' o ms d c : (forall k, In k (concat ms) -> r' k = r k /\ l' k = l k) -> col r' l' c d = col r l c d ->
  wcol r' l' o ms d c = wcol r l o ms d c.
Proof.
  intros H E. unfold wcol. rewrite E. rewrite (psums_ext r l r' l' ms); [reflexivity| |]; intros k Hk; apply H, Hk.
Qed.

(* the spinor of the head is changed: |a> if o is an angle, |a] otherwise *)
Definition only o a r l r' l' : Prop := (forall k, k <> a -> r' k = r k /\ l' k = l k) /\ (if oflag o then l' = l else r' = r).
Lemma only_r o a r l r' l' k : only o a r l r' l' -> k <> a -> r' k = r k /\ l' k = l k.
Proof. intros [H _]. auto. Qed.

(* the other end does not see the change *)
Definition apart o a ms d : Prop := ~ In a (concat ms) /\ (a <> d \/ Nat.odd (length ms) = true).
Lemma wcol_only o a r l r' l' ms d c : only o a r l r' l' -> str_ok o ms c -> apart o a ms d ->
  wcol r' l' o ms d c = wcol r l o ms d c.
Proof.
  intros O [No Ec] [Na Hd]. apply wcol_ext.
  - intros k Hk. apply O. intros ->. auto.
  - destruct (Z.eq_dec d a) as [->|N].
    + destruct Hd as [Hd|Hd]; [congruence|]. subst c. unfold end_of. rewrite <- Nat.negb_even in Hd. apply negb_true_iff in Hd. rewrite Hd.
      destruct O as [_ O]. destruct o; try congruence; cbn in *; rewrite O; reflexivity.
    + destruct (only_r _ _ _ _ _ _ d O N) as [E1 E2]. unfold col. rewrite E1, E2. reflexivity.
Qed.

Lemma solve_ends_lin s r l o a ms d c X : view s r l -> entries_ok s ms -> ms <> [] -> inr s a -> inr s d -> str_ok o ms c ->
  apart o a ms d ->
  (e0 (wcol r l o ms d c) = 0 -> solve_ends o a ms d c X s = (s, Err ZeroDivisionError)) /\
  (e0 (wcol r l o ms d c) <> 0 -> exists s' r' l', solve_ends o a ms d c X s = (s', Ok tt) /\ view s' r' l' /\ step s s' [a] /\
    chv r' l' o a ms d c = X /\ only o a r l r' l').
Proof.
  intros V H N Ha Hd B Ap.
  destruct (view_get s r l a V Ha) as (pa & Ga & _ & Ea1 & Ea2 & Ea3 & Ea4 & _).
  destruct (col_view s r l c d V Hd) as (pd & Gd & Ed).
  assert (Q : (Z.eqb a d && Nat.even (length ms))%bool = false).
  { destruct Ap as [_ [Q|Q]]; [apply Z.eqb_neq in Q; rewrite Q; reflexivity|]. rewrite <- Nat.negb_even in Q. apply negb_true_iff in Q. rewrite Q. apply andb_false_r. }
  set (w := wcol r l o ms d c) in *.
  assert (E : solve_ends o a ms d c X s = if is_angle o then
     bind (lift (divE (X - e1 (raise_r (r a)) * e1 w) (e0 w))) (fun x => on a (assign_r_sp_u (V2 x (e1 (raise_r (r a)))))) s
   else bind (lift (divE (X - e1 (l a) * e1 w) (e0 w))) (fun x => on a (assign_l_sp_d (V2 x (e1 (l a))))) s).
  { unfold solve_ends. rewrite bind_get, (bind_lift _ _ _ _ (rest_mat_view s r l ms V H N (is_angle o))), Q.
    rewrite (bind_at d _ s pd Gd). change (match c with CAng => r_d pd | _ => l_u pd end) with (ccol c pd).
    rewrite (bind_needo _ _ _ _ Ed). rewrite (bind_at a _ s pa Ga). rewrite is_angle_oflag. unfold w, wcol.
    destruct (oflag o).
    - rewrite (bind_needo _ _ _ _ Ea3). reflexivity.
    - rewrite (bind_needo _ _ _ _ Ea2). reflexivity. }
  rewrite E, is_angle_oflag. split.
  - intros Z. destruct (oflag o); rewrite (bind_lift_err _ _ _ _ (divE_0 _ _ Z)); reflexivity.
  - intros NZ. destruct (oflag o) eqn:Of.
    + rewrite (bind_lift _ _ _ _ (divE_ok _ _ NZ)).
      set (y := V2 _ _).
      destruct (on_ru s r l a y V Ha) as (s' & E' & V' & T). exists s', (upd r a (lower y)), l.
      assert (O : only o a r l (upd r a (lower y)) l).
      { split; [intros k Hk; rewrite upd_other by exact Hk; auto|]. rewrite Of. reflexivity. }
      split; [exact E'|]. split; [exact V'|]. split; [exact T|]. split; [|exact O].
      rewrite chv_wcol, (wcol_only o a r l _ _ ms d c O B Ap). fold w.
      destruct o; try discriminate. cbn [row]. rewrite upd_same, raise_lower'. unfold y. unfold_vec. cbn [e0 e1]. field. exact NZ.
    + rewrite (bind_lift _ _ _ _ (divE_ok _ _ NZ)).
      set (y := V2 _ _).
      destruct (on_ld s r l a y V Ha) as (s' & E' & V' & T). exists s', r, (upd l a y).
      assert (O : only o a r l r (upd l a y)).
      { split; [intros k Hk; rewrite upd_other by exact Hk; auto|]. rewrite Of. reflexivity. }
      split; [exact E'|]. split; [exact V'|]. split; [exact T|]. split; [|exact O].
      rewrite chv_wcol, (wcol_only o a r l _ _ ms d c O B Ap). fold w.
      destruct o; try discriminate; [destruct B; congruence|]. cbn [row]. rewrite upd_same. unfold y. unfold_vec. cbn [e0 e1]. field. exact NZ.
Qed.

(* a on both ends, an even number of entries: a quadratic equation *)
Definition quad_mat r l o ms : m2 K := mprod (oflag o) (map (psum r l) ms).
Definition second r l o a : K := if oflag o then e1 (r a) else e1 (l a).
Lemma mul_cancel (L x y : K) : L <> 0 -> L * x = L * y -> x = y.
Proof. intros N E. transitivity (L * x / L); [field; exact N|]. rewrite E. field. exact N. Qed.
Lemma quad_root (x y lead b X q : K) : lead <> 0 -> q * q = x * x + 2 * 2 * lead * (b - X) ->
  let A := (x + q) / (2 * lead) in x * A + b - lead * A * A = X.
Proof.
  intros NZ E A. assert (N2 : (2 : K) <> 0) by apply f2_nz.
  assert (D : 2 * 2 * lead * (x * A + b - lead * A * A) = 2 * 2 * lead * X).
  { unfold A. transitivity (x * x - q * q + 2 * 2 * lead * b); [field; auto|]. rewrite E. ring. }
  assert (N4 : 2 * 2 * lead <> 0) by (repeat apply mul_nz; assumption).
  revert D. generalize (x * A + b - lead * A * A). intros y0 D. apply (mul_cancel _ _ _ N4 D).
Qed.
Lemma solve_ends_quad s r l o a ms c X : view s r l -> entries_ok s ms -> ms <> [] -> inr s a -> str_ok o ms c ->
  ~ In a (concat ms) -> Nat.even (length ms) = true ->
  let m := quad_mat r l o ms in
  fsqrt (quad_disc o m (second r l o a) X) <> None -> quad_lead o m <> 0 ->
  exists s' r' l', solve_ends o a ms a c X s = (s', Ok tt) /\ view s' r' l' /\ step s s' [a] /\
    chv r' l' o a ms a c = X /\ only o a r l r' l'.
Proof.
  intros V H N Ha B Na Ev m SQ NZ.
  destruct (view_get s r l a V Ha) as (pa & Ga & _ & Ea1 & Ea2 & Ea3 & Ea4 & _).
  destruct (fsqrt (quad_disc o m (second r l o a) X)) as [q|] eqn:Q; [|congruence]. clear SQ. pose proof (fsqrt_ok _ _ _ Q) as QQ.
  assert (N2 : (2 : K) <> 0) by apply f2_nz.
  assert (E : solve_ends o a ms a c X s =
    let y := V2 ((second r l o a * m00 m - second r l o a * m11 m + q) / (2 * quad_lead o m)) (second r l o a) in
    if oflag o then on a (assign_r_sp_d y) s else on a (assign_l_sp_d y) s).
  { unfold solve_ends. rewrite bind_get, (bind_lift _ _ _ _ (rest_mat_view s r l ms V H N (is_angle o))).
    rewrite Z.eqb_refl, Ev. cbn [andb]. rewrite (bind_at a _ s pa Ga). rewrite is_angle_oflag. fold (quad_mat r l o ms). fold m.
    unfold quad_disc, quad_lead, second in *. destruct (oflag o).
    - rewrite (bind_needo _ _ _ _ Ea1). cbv zeta. unfold sqrtQ. rewrite Q. rewrite (bind_ok _ _ _ s q) by reflexivity.
      rewrite (bind_lift _ _ _ _ (divE_ok _ _ (mul_nz _ _ N2 NZ))). reflexivity.
    - rewrite (bind_needo _ _ _ _ Ea2). cbv zeta. unfold sqrtQ. rewrite Q. rewrite (bind_ok _ _ _ s q) by reflexivity.
      rewrite (bind_lift _ _ _ _ (divE_ok _ _ (mul_nz _ _ N2 NZ))). reflexivity. }
  rewrite E. cbv zeta. set (y := V2 _ _). destruct B as [No Ec]. unfold end_of in Ec. rewrite Ev in Ec. unfold quad_disc in QQ.
  assert (M : forall r' l', (forall k, k <> a -> r' k = r k /\ l' k = l k) -> mprod (oflag o) (map (psum r' l') ms) = m).
  { intros r' l' O. unfold m, quad_mat. rewrite (psums_ext r l r' l' ms); [reflexivity| |]; intros k Hk; apply O; intros ->; auto. }
  destruct (oflag o) eqn:Of.
  - destruct (on_rd s r l a y V Ha) as (s' & E' & V' & T). exists s', (upd r a y), l.
    assert (O : only o a r l (upd r a y) l). { split; [intros k Hk; rewrite upd_other by exact Hk; auto|]. rewrite Of. reflexivity. }
    split; [exact E'|]. split; [exact V'|]. split; [exact T|]. split; [|exact O].
    unfold chv. rewrite Of. rewrite M by apply O. destruct o; try discriminate. subst c. cbn [row col close_of]. rewrite upd_same.
    unfold second, quad_lead in *. cbn [oflag] in *.
    rewrite <- (quad_root (e1 (r a) * m00 m - e1 (r a) * m11 m) 0 (m10 m) (e1 (r a) * e1 (r a) * m01 m) X q NZ QQ).
    unfold y, raise_r. unfold_vec. cbn [e0 e1]. ring.
  - destruct (on_ld s r l a y V Ha) as (s' & E' & V' & T). exists s', r, (upd l a y).
    assert (O : only o a r l r (upd l a y)). { split; [intros k Hk; rewrite upd_other by exact Hk; auto|]. rewrite Of. reflexivity. }
    split; [exact E'|]. split; [exact V'|]. split; [exact T|]. split; [|exact O].
    unfold chv. rewrite Of. rewrite M by apply O. destruct o; try discriminate; try congruence. subst c. cbn [row col close_of]. rewrite upd_same.
    unfold second, quad_lead in *. cbn [oflag] in *.
    rewrite <- (quad_root (e1 (l a) * m00 m - e1 (l a) * m11 m) 0 (m01 m) (e1 (l a) * e1 (l a) * m10 m) X q NZ QQ).
    unfold y, raise_r. unfold_vec. cbn [e0 e1]. ring.
Qed.

(* ---- restoring momentum conservation with two free legs ---- *)
Lemma fix_NB_two cv so s r l o1 a1 a ms d p q rest : set_like so -> view s r l ->
  free_legs (length s) (a :: concat ms ++ [d]) = p :: q :: rest ->
  (vdot (l p) (raise_r (l q)) = 0 -> fix_NB cv so o1 a1 a ms d true s = (s, Err ZeroDivisionError)) /\
  (vdot (l p) (raise_r (l q)) <> 0 -> exists s' r', fix_NB cv so o1 a1 a ms d true s = (s', Ok tt) /\ view s' r' l /\ step s s' [p; q] /\
    total_mom s' = mzero /\ (forall k, In k (a :: concat ms ++ [d]) -> r' k = r k) /\ (forall k, k <> p -> k <> q -> r' k = r k)).
Proof.
  intros SO V FL. destruct (free_two _ _ _ _ _ FL) as (Hp & Hq & Npq & Ip & Iq).
  assert (E : fix_NB cv so o1 a1 a ms d true s = fixm cv p q 1 s).
  { unfold fix_NB. rewrite bind_get. rewrite (bind_lift _ _ _ _ (complementary_free so (length s) (a :: concat ms ++ [d]) SO ltac:(discriminate))).
    rewrite FL. reflexivity. }
  rewrite E. destruct (fixm_view cv s r l p q 1 V Hp Hq Npq) as [F1 F2]. cbn [Z.eqb Pos.eqb] in *. split; [exact F1|].
  intros NZ. destruct (F2 NZ) as (s' & r' & l' & E' & V' & T & TM & -> & O). exists s', r'.
  split; [exact E'|]. split; [exact V'|]. split; [exact T|]. split; [exact TM|]. split.
  - intros k Hk. apply O; intros ->; auto.
  - exact O.
Qed.

(* ---- the branches of set_NB ---- *)
Lemma labels_ent m : m <> [] -> labels (ent m) = Ok m.
Proof.
  destruct m as [|i m]; [congruence|]. intros _. unfold ent, labels. cbn [fst snd].
  replace (forallb fst (map (pair true) m)) with true.
  - rewrite map_map. cbn [snd]. rewrite map_id. reflexivity.
  - symmetry. apply forallb_forall. intros [b x] Hx. apply in_map_iff in Hx as (y & Ey & _). cbn. congruence.
Qed.
Lemma labels_ents ms : Forall (fun m => m <> []) ms -> rmapM labels (map ent ms) = Ok ms.
Proof.
  induction 1 as [|m ms N _ IH]; [reflexivity|]. cbn [map rmapM]. rewrite labels_ent by exact N. rewrite IH. reflexivity.
Qed.
Lemma entries_nonempty s ms : entries_ok s ms -> Forall (fun m => m <> []) ms.
Proof. apply Forall_impl. intros m [H _]. exact H. Qed.

Definition two_free n (a : Z) ms (d : Z) : Prop := exists p q rest, free_legs n (a :: concat ms ++ [d]) = p :: q :: rest.
Definition NB_body cv so fuel' o (a : Z) ms (d : Z) c X fx mode : QM (K := K) unit :=
    let ht := head_or_tail a ms d in
    let um := unique_middle a ms d in
    let ends := match ht with
                | Some _ => true
                | None => (Z.eqb a d && negb (zmem a (concat ms)) && Nat.even (length ms))%bool
                end in
    match (ends && Z.eqb mode 1)%bool, um with
    | false, Some (b, j, i) =>
        let m0 := swap_front j (nth i ms []) in
        if Nat.eqb i 0 then
          bind (solve_middle cv so o o a b m0 (tl ms) d c X) (fun _ => fix_NB cv so o a a ms d fx)
        else
          bind (solve_middle cv so o (facing_o c) d b m0 (rev (removelast ms)) a (facing_c o) X) (fun _ => fix_NB cv so (facing_o c) d a ms d fx)
    | _, _ =>
        match ht with
        | Some true => set_NB cv so fuel' (facing_o c) d (rev (map (@rev Z) ms)) a (facing_c o) X fx mode
        | _ => bind (solve_ends o a ms d c X) (fun _ => fix_NB cv so o a a ms d fx)
        end
    end.
Lemma set_NB_enough cv so f o a ms d c X mode s : set_like so -> two_free (length s) a ms d ->
  set_NB cv so (S f) o a ms d c X true mode s = NB_body cv so f o a ms d c X true mode s.
Proof.
  intros SO (p & q & rest & FL). cbn [set_NB]. rewrite bind_get.
  rewrite (bind_lift _ _ _ _ (complementary_free so (length s) (a :: concat ms ++ [d]) SO ltac:(discriminate))). rewrite FL.
  cbn [length Nat.ltb Nat.leb andb]. reflexivity.
Qed.
Lemma head_free a ms d : ~ In a (concat ms) -> (a <> d \/ Nat.odd (length ms) = true) -> head_or_tail a ms d = Some false.
Proof.
  intros N H. unfold head_or_tail. apply zmem_false in N. rewrite N. cbn [negb andb].
  destruct H as [H|H]; [apply Z.eqb_neq in H; rewrite H; cbn [negb]; rewrite orb_true_r; reflexivity|rewrite H; reflexivity].
Qed.
Lemma tail_free a ms d : In a (concat ms) -> ~ In d (concat ms) -> head_or_tail a ms d = Some true.
Proof.
  intros Ha N. unfold head_or_tail. assert (D : a <> d) by (intros ->; auto). apply zmem_false in N. apply zmem_true in Ha. rewrite N, Ha.
  cbn [negb andb]. apply Z.eqb_neq in D. rewrite D. cbn [negb]. rewrite orb_true_r. reflexivity.
Qed.

(* the head is changed, |p> and |q> restore momentum conservation *)
Lemma NB_head cv so f s r l o a ms d c X p q rest : set_like so -> view s r l -> entries_ok s ms -> ms <> [] -> inr s a -> inr s d ->
  str_ok o ms c -> apart o a ms d -> free_legs (length s) (a :: concat ms ++ [d]) = p :: q :: rest ->
  let w := wcol r l o ms d c in
  (e0 w = 0 -> set_NB cv so (S f) o a ms d c X true 1 s = (s, Err ZeroDivisionError)) /\
  (e0 w <> 0 -> vdot (l p) (raise_r (l q)) <> 0 ->
   exists s' r' l', set_NB cv so (S f) o a ms d c X true 1 s = (s', Ok tt) /\ view s' r' l' /\ step s s' [a; p; q] /\
     total_mom s' = mzero /\ chv r' l' o a ms d c = X /\ (forall k, k <> a -> l' k = l k) /\ (forall k, k <> a -> k <> p -> k <> q -> r' k = r k) /\
     (if oflag o then l' a = l a else r' a = r a)).
Proof.
  intros SO V H N Ha Hd B Ap FL w.
  assert (E : set_NB cv so (S f) o a ms d c X true 1 s = bind (solve_ends o a ms d c X) (fun _ => fix_NB cv so o a a ms d true) s).
  { rewrite set_NB_enough; [|exact SO|exists p, q, rest; exact FL]. unfold NB_body. destruct Ap as [A1 A2]. rewrite (head_free a ms d A1 A2). reflexivity. }
  rewrite E. destruct (solve_ends_lin s r l o a ms d c X V H N Ha Hd B Ap) as [S1 S2]. fold w in S1, S2. split.
  - intros Z. rewrite (bind_err _ _ _ _ _ (S1 Z)). reflexivity.
  - intros NZ PV. destruct (S2 NZ) as (s1 & r1 & l1 & E1 & V1 & T1 & C1 & O1). rewrite (bind_ok _ _ _ _ _ E1).
    destruct (free_two _ _ _ _ _ FL) as (Hp & Hq & Npq & Ip & Iq).
    assert (Npa : p <> a) by (intros ->; apply Ip; cbn; auto). assert (Nqa : q <> a) by (intros ->; apply Iq; cbn; auto).
    destruct (only_r _ _ _ _ _ _ p O1 Npa) as [_ Lp]. destruct (only_r _ _ _ _ _ _ q O1 Nqa) as [_ Lq].
    assert (L1 : length s1 = length s) by apply T1.
    destruct (fix_NB_two cv so s1 r1 l1 o a a ms d p q rest SO V1) as [_ F]; [rewrite L1; exact FL|].
    destruct F as (s2 & r2' & E2 & V2 & T2 & TM & Kr & Ko); [rewrite Lp, Lq; exact PV|].
    exists s2, r2', l1. split; [exact E2|]. split; [exact V2|]. split; [apply (step_trans _ _ _ _ _ T1 T2)|]. split; [exact TM|].
    split; [|split; [|split]].
    + rewrite (chv_ext r1 l1 r2' l1); auto.
    + intros k Hk. apply (only_r _ _ _ _ _ _ k O1 Hk).
    + intros k Hk Hkp Hkq. rewrite (Ko k Hkp Hkq). apply (only_r _ _ _ _ _ _ k O1 Hk).
    + destruct O1 as [_ O1]. rewrite (Kr a) by (left; reflexivity). destruct (oflag o); rewrite O1; reflexivity.
Qed.
Lemma NB_quad cv so f s r l o a ms c X p q rest : set_like so -> view s r l -> entries_ok s ms -> ms <> [] -> inr s a ->
  str_ok o ms c -> ~ In a (concat ms) -> Nat.even (length ms) = true -> free_legs (length s) (a :: concat ms ++ [a]) = p :: q :: rest ->
  let m := quad_mat r l o ms in
  fsqrt (quad_disc o m (second r l o a) X) <> None -> quad_lead o m <> 0 -> vdot (l p) (raise_r (l q)) <> 0 ->
   exists s' r' l', set_NB cv so (S f) o a ms a c X true 1 s = (s', Ok tt) /\ view s' r' l' /\ step s s' [a; p; q] /\
     total_mom s' = mzero /\ chv r' l' o a ms a c = X /\ (forall k, k <> a -> l' k = l k) /\ (forall k, k <> a -> k <> p -> k <> q -> r' k = r k) /\
     (if oflag o then l' a = l a else r' a = r a).
Proof.
  intros SO V H N Ha B Na Ev FL m SQ NZ PV.
  assert (E : set_NB cv so (S f) o a ms a c X true 1 s = bind (solve_ends o a ms a c X) (fun _ => fix_NB cv so o a a ms a true) s).
  { rewrite set_NB_enough; [|exact SO|exists p, q, rest; exact FL]. unfold NB_body.
    assert (HT : head_or_tail a ms a = None).
    { unfold head_or_tail. rewrite <- Nat.negb_even, Ev, Z.eqb_refl. cbn [negb orb]. rewrite andb_false_r. reflexivity. }
    rewrite HT. rewrite Z.eqb_refl, Ev. pose proof Na as Na'. apply zmem_false in Na'. rewrite Na'. reflexivity. }
  rewrite E. destruct (solve_ends_quad s r l o a ms c X V H N Ha B Na Ev SQ NZ) as (s1 & r1 & l1 & E1 & V1 & T1 & C1 & O1). rewrite (bind_ok _ _ _ _ _ E1).
    destruct (free_two _ _ _ _ _ FL) as (Hp & Hq & Npq & Ip & Iq).
    assert (Npa : p <> a) by (intros ->; apply Ip; cbn; auto). assert (Nqa : q <> a) by (intros ->; apply Iq; cbn; auto).
    destruct (only_r _ _ _ _ _ _ p O1 Npa) as [_ Lp]. destruct (only_r _ _ _ _ _ _ q O1 Nqa) as [_ Lq].
    assert (L1 : length s1 = length s) by apply T1.
    destruct (fix_NB_two cv so s1 r1 l1 o a a ms a p q rest SO V1) as [_ F]; [rewrite L1; exact FL|].
    destruct F as (s2 & r2' & E2 & V2 & T2 & TM & Kr & Ko); [rewrite Lp, Lq; exact PV|].
    exists s2, r2', l1. split; [exact E2|]. split; [exact V2|]. split; [apply (step_trans _ _ _ _ _ T1 T2)|]. split; [exact TM|].
    split; [|split; [|split]].
    + rewrite (chv_ext r1 l1 r2' l1); auto.
    + intros k Hk. apply (only_r _ _ _ _ _ _ k O1 Hk).
    + intros k Hk Hkp Hkq. rewrite (Ko k Hkp Hkq). apply (only_r _ _ _ _ _ _ k O1 Hk).
    + destruct O1 as [_ O1]. rewrite (Kr a) by (left; reflexivity). destruct (oflag o); rewrite O1; reflexivity.
Qed.

(* ---- turning a string round ---- *)
Lemma facing_open c : facing_o c = open_of c. Proof. destruct c; reflexivity. Qed.
Lemma facing_close o : facing_c o = close_of o. Proof. destruct o; reflexivity. Qed.
Lemma str_rev o ms c : str_ok o ms c -> str_ok (open_of c) (rev ms) (close_of o).
Proof.
  intros [No Ec]. unfold str_ok, end_of in *. rewrite rev_length. destruct o; try congruence; destruct (Nat.even (length ms)); subst c; cbn; split; congruence.
Qed.
Lemma chv_reverse r l o a ms d c : str_ok o ms c ->
  chv r l (open_of c) d (rev ms) a (close_of o) = rev_sign (length ms) (chv r l o a ms d c).
Proof.
  intros [No Ec]. unfold chv, rev_sign. rewrite map_rev. unfold end_of in Ec.
  assert (L : length (map (psum r l) ms) = length ms) by apply map_length. set (M := map (psum r l) ms) in *.
  destruct o; try congruence; destruct (Nat.even (length ms)) eqn:Ev; subst c; cbn [close_of swap_c open_of row col oflag].
  - rewrite adj_raise_same, mprod_adj, rev_involutive, rev_length, L. unfold flip_by. rewrite Ev. reflexivity.
  - rewrite (adj_mixed (mprod true M)), mprod_adj, L. unfold flip_by. rewrite Ev. reflexivity.
  - rewrite (adj_lower_same (mprod false (rev M))), mprod_adj, rev_involutive, rev_length, L. unfold flip_by. rewrite Ev. reflexivity.
  - rewrite adj_mixed, mprod_adj, rev_involutive, rev_length, L. unfold flip_by. rewrite Ev. reflexivity.
Qed.
Lemma psums_rev r l ms : map (psum r l) (map (@rev Z) ms) = map (psum r l) ms.
Proof. rewrite map_map. apply map_ext. intros m. apply psum_perm, Permutation_sym, Permutation_rev. Qed.
Lemma chv_inner_rev r l o a ms d c : chv r l o a (rev (map (@rev Z) ms)) d c = chv r l o a (rev ms) d c.
Proof. unfold chv. rewrite !map_rev, psums_rev. reflexivity. Qed.
Lemma wcol_inner_rev r l o ms d c : wcol r l o (rev (map (@rev Z) ms)) d c = wcol r l o (rev ms) d c.
Proof. unfold wcol. rewrite !map_rev, psums_rev. reflexivity. Qed.
Lemma In_concat_rev k ms : In k (concat (rev (map (@rev Z) ms))) <-> In k (concat ms).
Proof.
  rewrite !in_concat. split.
  - intros (x & Hx & Hk). apply in_rev in Hx. apply in_map_iff in Hx as (y & <- & Hy). exists y. split; [exact Hy|]. apply in_rev, Hk.
  - intros (x & Hx & Hk). exists (rev x). split; [apply -> in_rev; apply in_map, Hx|apply -> in_rev; exact Hk].
Qed.
Lemma free_rev n a ms d : free_legs n (d :: concat (rev (map (@rev Z) ms)) ++ [a]) = free_legs n (a :: concat ms ++ [d]).
Proof.
  apply free_legs_ext. intros k. cbn [In]. rewrite !in_app_iff, In_concat_rev. cbn [In]. tauto.
Qed.
Lemma entries_rev s ms : entries_ok s ms -> entries_ok s (rev (map (@rev Z) ms)).
Proof.
  unfold entries_ok. rewrite !Forall_forall. intros H x Hx. apply in_rev in Hx. apply in_map_iff in Hx as (m & <- & Hm).
  destruct (H m Hm) as [N L]. split.
  - intros E. apply N. rewrite <- (rev_involutive m), E. reflexivity.
  - intros k Hk. apply L. apply in_rev, Hk.
Qed.
Lemma rev_nnil {A} (x : list A) : x <> [] -> rev x <> [].
Proof. intros H E. apply H. rewrite <- (rev_involutive x), E. reflexivity. Qed.
Lemma map_nnil {A B} (f : A -> B) (x : list A) : x <> [] -> map f x <> [].
Proof. intros H E. apply map_eq_nil in E. auto. Qed.

(* the tail is changed: the string that is set to X is the reversed one *)
Lemma NB_tail cv so f s r l o a ms d c X p q rest : set_like so -> view s r l -> entries_ok s ms -> ms <> [] -> inr s a -> inr s d ->
  str_ok o ms c -> In a (concat ms) -> ~ In d (concat ms) -> free_legs (length s) (a :: concat ms ++ [d]) = p :: q :: rest ->
  let w := wcol r l (open_of c) (rev ms) a (close_of o) in
  (e0 w = 0 -> set_NB cv so (S (S f)) o a ms d c X true 1 s = (s, Err ZeroDivisionError)) /\
  (e0 w <> 0 -> vdot (l p) (raise_r (l q)) <> 0 ->
   exists s' r' l', set_NB cv so (S (S f)) o a ms d c X true 1 s = (s', Ok tt) /\ view s' r' l' /\ step s s' [d; p; q] /\
     total_mom s' = mzero /\ rev_sign (length ms) (chv r' l' o a ms d c) = X).
Proof.
  intros SO V H N Ha Hd B Ia Id FL w.
  assert (E : set_NB cv so (S (S f)) o a ms d c X true 1 s =
    set_NB cv so (S f) (open_of c) d (rev (map (@rev Z) ms)) a (close_of o) X true 1 s).
  { rewrite set_NB_enough; [|exact SO|exists p, q, rest; exact FL]. unfold NB_body. rewrite (tail_free a ms d Ia Id). cbn [andb Z.eqb Pos.eqb].
    rewrite facing_open, facing_close. reflexivity. }
  rewrite E.
  assert (Ap : apart (open_of c) d (rev (map (@rev Z) ms)) a).
  { split; [rewrite In_concat_rev; exact Id|]. left. intros ->. auto. }
  assert (B' : str_ok (open_of c) (rev (map (@rev Z) ms)) (close_of o)).
  { apply str_rev in B. destruct B as [B1 B2]. split; [exact B1|]. rewrite rev_length, map_length. rewrite rev_length in B2. exact B2. }
  destruct (NB_head cv so f s r l (open_of c) d (rev (map (@rev Z) ms)) a (close_of o) X p q rest SO V (entries_rev s ms H)
     (rev_nnil _ (map_nnil _ _ N)) Hd Ha B' Ap) as [N1 N2]; [rewrite free_rev; exact FL|].
  rewrite wcol_inner_rev in N1, N2. fold w in N1, N2. split; [exact N1|].
  intros NZ PV. destruct (N2 NZ PV) as (s' & r' & l' & E' & V' & T & TM & C & _). exists s', r', l'.
  split; [exact E'|]. split; [exact V'|]. split; [exact T|]. split; [exact TM|].
  rewrite <- chv_reverse by exact B. rewrite <- chv_inner_rev. exact C.
Qed.
End Chains.
