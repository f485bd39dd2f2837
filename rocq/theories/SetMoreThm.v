(* Proofs about SetPairMore.v: restoring momentum conservation after two strings are set. *)
From Coq Require Import List ZArith Bool Lia Ring Field Permutation.
From Verif Require Import Base Fld Particle ParticleSpec ParticleThm Index IndexThm Phase PhaseSpec PhaseThm
  Arcs ArcsThm Compute ComputeSpec ComputeThm ComputeThm2 SetOne SetSpec SetThm SetThm2 SetThm3 SetThm4 SetThm5 SetThm8 SetPair SetPairSpec SetPairThm
  SetPairMore SetMoreSpec.
Import ListNotations.

Section More.
Context {K : Fld}.
Open Scope fld_scope.
Add Field Kmo1 : (fth K).
Implicit Types (s : ps K) (r l : Z -> v2 K) (k : Z) (X v w : K).

(* the new spinors differ from the old ones in what the axis says, at p and q *)
Definition moved (axis p q : Z) r l r' l' : Prop :=
  (square_changed axis = false -> forall j, l' j = l j) /\ (square_changed axis = true -> forall j, r' j = r j) /\
  (forall j, j <> p -> j <> q -> r' j = r j /\ l' j = l j).
Lemma moved_two an a b axis p q r l r' l' : moved axis p q r l r' l' -> spared_two an a b axis p -> spared_two an a b axis q ->
  br an r' l' a b = br an r l a b.
Proof.
  intros (M1 & M2 & M3) Sp Sq. unfold spared_two in *.
  assert (G : forall k, In k [a; b] -> if an then r' k = r k else l' k = l k).
  { intros k Hk. destruct (Z.eq_dec k p) as [->|Np]; [|destruct (Z.eq_dec k q) as [->|Nq]].
    - specialize (Sp Hk). destruct an; auto.
    - specialize (Sq Hk). destruct an; auto.
    - destruct (M3 k Np Nq). destruct an; auto. }
  unfold br. destruct an; rewrite (G a), (G b) by (cbn; auto); reflexivity.
Qed.
Lemma moved_row axis p q r l r' l' o k : moved axis p q r l r' l' -> (k = p -> angle_o o = square_changed axis) -> (k = q -> angle_o o = square_changed axis) ->
  row r' l' o k = row r l o k.
Proof.
  intros (M1 & M2 & M3) Hp Hq.
  assert (G : if angle_o o then r' k = r k else l' k = l k).
  { destruct (Z.eq_dec k p) as [->|Np]; [|destruct (Z.eq_dec k q) as [->|Nq]].
    - specialize (Hp eq_refl). destruct (angle_o o); auto.
    - specialize (Hq eq_refl). destruct (angle_o o); auto.
    - destruct (M3 k Np Nq). destruct (angle_o o); auto. }
  unfold row. destruct o; cbn [angle_o] in G; rewrite G; reflexivity.
Qed.
Lemma moved_col axis p q r l r' l' c k : moved axis p q r l r' l' -> (k = p -> angle_c c = square_changed axis) -> (k = q -> angle_c c = square_changed axis) ->
  col r' l' c k = col r l c k.
Proof.
  intros (M1 & M2 & M3) Hp Hq.
  assert (G : if angle_c c then r' k = r k else l' k = l k).
  { destruct (Z.eq_dec k p) as [->|Np]; [|destruct (Z.eq_dec k q) as [->|Nq]].
    - specialize (Hp eq_refl). destruct (angle_c c); auto.
    - specialize (Hq eq_refl). destruct (angle_c c); auto.
    - destruct (M3 k Np Nq). destruct (angle_c c); auto. }
  unfold col. destruct c; cbn [angle_c] in G; rewrite G; reflexivity.
Qed.
Lemma moved_chain axis p q r l r' l' o a ms d c : moved axis p q r l r' l' -> spared_chain o a ms d c axis p -> spared_chain o a ms d c axis q ->
  chv r' l' o a ms d c = chv r l o a ms d c.
Proof.
  intros M (P1 & P2 & P3) (Q1 & Q2 & Q3). unfold chv.
  rewrite (moved_row axis p q r l r' l' o a M), (moved_col axis p q r l r' l' c d M); auto.
  destruct M as (_ & _ & M3). rewrite (psums_ext r l r' l' ms); [reflexivity| |]; intros k Hk; apply M3; intros ->; auto.
Qed.
(* a three-bracket as a sum *)
Definition o3 (an : bool) : obr := if an then OAng else OSq.
Definition c3 (an : bool) : cbr := if an then CSq else CAng.
Lemma three_nil an r l a d : chv r l (o3 an) a [[]] d (c3 an) = 0.
Proof. unfold chv. destruct an; cbn [o3 c3 map oflag mprod row col psum]; unfold psum; cbn [map msum fold_right flagm]; unfold_vec; cbn; unfold_vec; ring. Qed.
Lemma three_cons an r l a j m d : chv r l (o3 an) a [j :: m] d (c3 an) =
  br an r l a j * br (negb an) r l j d + chv r l (o3 an) a [m] d (c3 an).
Proof. rewrite chv_split by (destruct an; discriminate). rewrite (chv_cons r l _ a m) by (destruct an; discriminate). f_equal. unfold brk, br, wcol. destruct an; cbn [o3 c3 negb map oflag mprod row col swap_o]; rewrite ?mv_mone; unfold raise_r; unfold_vec; ring. Qed.
Lemma br_self an r l a : br an r l a a = 0.
Proof. unfold br, raise_r. destruct an; unfold_vec; ring. Qed.
Lemma moved_br an a b axis p q r l r' l' : moved axis p q r l r' l' -> (forall k, In k [a; b] -> k = p \/ k = q -> an = square_changed axis) ->
  br an r' l' a b = br an r l a b.
Proof. intros M H. apply (moved_two an a b axis p q r l r' l' M); intros Hk; apply (H _ Hk); auto. Qed.
Lemma moved_three an axis p q r l r' l' a m d : moved axis p q r l r' l' -> spared_three an a m d axis p -> spared_three an a m d axis q ->
  chv r' l' (o3 an) a [m] d (c3 an) = chv r l (o3 an) a [m] d (c3 an).
Proof.
  intros M P Q. induction m as [|j m IH]; [rewrite !three_nil; reflexivity|].
  rewrite !three_cons. rewrite IH.
  2: destruct P as (P1 & P2 & P3); split; [intros H; apply P1; right; exact H|auto].
  2: destruct Q as (Q1 & Q2 & Q3); split; [intros H; apply Q1; right; exact H|auto].
  f_equal. destruct (Z.eq_dec j a) as [->|Na]; [rewrite !br_self; ring|].
  destruct (Z.eq_dec j d) as [->|Nd]; [rewrite !(br_self (negb an)); ring|].
  destruct P as (P1 & P2 & P3), Q as (Q1 & Q2 & Q3).
  assert (j <> p) by (intros ->; destruct P1; [left; reflexivity|congruence|congruence]).
  assert (j <> q) by (intros ->; destruct Q1; [left; reflexivity|congruence|congruence]).
  rewrite (moved_br an a j axis p q r l r' l' M), (moved_br (negb an) j d axis p q r l r' l' M); [reflexivity| |].
  - intros k [<-|[<-|[]]] [E|E]; try congruence.
    + rewrite (P3 (eq_sym E)), negb_involutive. reflexivity.
    + rewrite (Q3 (eq_sym E)), negb_involutive. reflexivity.
  - intros k [<-|[<-|[]]] [E|E]; try congruence; auto.
Qed.

(* fix_mom_cons *)
Lemma fixm_moved cv s r l (p q : Z) axis : view s r l -> choice (length s) p q axis ->
  (fixm cv p q axis s = (s, Err ZeroDivisionError)) \/
  (exists s' r' l', fixm cv p q axis s = (s', Ok tt) /\ view s' r' l' /\ step s s' [p; q] /\ total_mom s' = mzero /\ moved axis p q r l r' l').
Proof.
  intros V (Hp & Hq & N & A). pose proof (fixm_view cv s r l p q axis V Hp Hq N) as F. cbn zeta in F.
  set (d := if Z.eqb axis 1 then _ else _) in F. destruct F as [F1 F2]. destruct (feq_dec d) as [Z|Z]; [left; auto|right].
  destruct (F2 Z) as (s' & r' & l' & E & V' & T & TM & C). exists s', r', l'. split; [exact E|]. split; [exact V'|]. split; [exact T|]. split; [exact TM|].
  unfold moved, square_changed. destruct A as [->| ->]; cbn [Z.eqb Pos.eqb] in C |- *; destruct C as [-> C]; repeat split; auto; congruence.
Qed.
Lemma step_rest s s' (p q k : Z) : step s s' [p; q] -> k <> p -> k <> q -> getitem s' k = getitem s k.
Proof. intros [_ H] Np Nq. apply H. intros [E|[E|[]]]; congruence. Qed.

Theorem fix_restores cv s (p q axis : Z) ts : Forall (fun x => fresh x) s -> choice (length s) p q axis ->
  (forall t, In t ts ->
     (exists an a b, t = two an a b /\ inr s a /\ inr s b /\ spared_two an a b axis p /\ spared_two an a b axis q) \/
     (exists o a ms d c, t = chain_t o a ms d c /\ inr s a /\ inr s d /\ entries_ok s ms /\ ms <> [] /\ o <> OLt /\ c = end_of o (length ms) /\
        spared_chain o a ms d c axis p /\ spared_chain o a ms d c axis q) \/
     (exists an a m d, t = three an a m d /\ inr s a /\ inr s d /\ m <> [] /\ legs_of s m /\
        spared_three an a m d axis p /\ spared_three an a m d axis q)) ->
  (fixm cv p q axis s = (s, Err ZeroDivisionError)) \/
  (exists s', fixm cv p q axis s = (s', Ok tt) /\ restored s s' p q ts).
Proof.
  intros F C H. pose proof (view_of s F) as V. set (r := rs s) in *. set (l := ls s) in *.
  destruct (fixm_moved cv s r l p q axis V C) as [E|(s' & r' & l' & E & V' & T & TM & M)]; [left; exact E|right].
  exists s'. split; [exact E|]. split; [exact TM|]. split; [apply (view_fresh _ _ _ V')|]. split; [apply T|].
  split; [intros k; apply (step_rest s s' p q k T)|].
  pose proof (fun k => inr_step _ _ _ k T) as I1.
  apply Forall_forall. intros t Ht. destruct (H t Ht) as [(an & a & b & -> & Ha & Hb & Sp & Sq)|[(o & a & ms & d & c & -> & Ha & Hd & Hm & Nm & No & Ec & Sp & Sq)|(an & a & m & d & -> & Ha & Hd & Nm & Lm & Sp & Sq)]].
  - rewrite (two_value an s r l a b V Ha Hb), (two_value an s' r' l' a b V' (I1 a Ha) (I1 b Hb)). f_equal.
    apply (moved_two an a b axis p q); auto.
  - rewrite (target_view s r l o a ms d c V Hm Nm Ha Hd (conj No Ec)).
    rewrite (target_view s' r' l' o a ms d c V' (entries_step _ _ _ _ T Hm) Nm (I1 a Ha) (I1 d Hd) (conj No Ec)). f_equal.
    apply (moved_chain axis p q); auto.
  - assert (EQ : three an a m d = chain_t (o3 an) a [m] d (c3 an)) by (destruct an; reflexivity).
    assert (SO : str_ok (o3 an) [m] (c3 an)) by (split; destruct an; [discriminate|discriminate|reflexivity|reflexivity]).
    assert (Hm : entries_ok s [m]) by (constructor; [split; assumption|constructor]).
    rewrite EQ. rewrite (target_view s r l _ a [m] d _ V Hm) by (auto; discriminate).
    rewrite (target_view s' r' l' _ a [m] d _ V' (entries_step _ _ _ _ T Hm)) by (auto; discriminate). f_equal.
    apply (moved_three an axis p q); auto.
Qed.

(* ---- _can_fix_mom_cons ---- *)
Lemma obr_eqb_ok an o : o <> OLt -> obr_eqb (o_of an) o = true -> angle_o o = an.
Proof. destruct an, o; cbn; congruence. Qed.
Lemma cbr_eqb_ok an c : cbr_eqb (c_of an) c = true -> angle_c c = an.
Proof. destruct an, c; cbn; congruence. Qed.
Lemma end_even o ms c : o <> OLt -> c = end_of o ms -> Nat.even ms = true -> angle_c c = angle_o o.
Proof. unfold end_of. intros No -> ->. destruct o; cbn; congruence. Qed.
Lemma spare_sq an : square_changed (spare an) = an.
Proof. destruct an; reflexivity. Qed.
Lemma spare_axis an : spare an = 1%Z \/ spare an = 2%Z.
Proof. destruct an; auto. Qed.
Lemma angle_is o : is_angle o = angle_o o. Proof. destruct o; reflexivity. Qed.
Lemma angle_isc c : is_angle_c c = angle_c c. Proof. destruct c; reflexivity. Qed.
Ltac bsplit := repeat match goal with
  | H : (_ && _)%bool = true |- _ => apply andb_true_iff in H as [? ?]
  | H : negb _ = true |- _ => apply negb_true_iff in H
  | H : zmem _ _ = true |- _ => apply zmem_true in H
  | H : zmem _ _ = false |- _ => apply zmem_false in H
  | H : Z.eqb _ _ = true |- _ => apply Z.eqb_eq in H
  | H : Z.eqb _ _ = false |- _ => apply Z.eqb_neq in H
  end.
Lemma notin_lNB k (sa e : Z) (ms : list (list Z)) : ~ In k (sa :: concat ms ++ [e]) -> k <> sa /\ k <> e /\ ~ In k (concat ms).
Proof. cbn. rewrite in_app_iff. cbn. intuition congruence. Qed.
Lemma free_spared n an a b o sa ms e c axis k : In k (free_legs n ([a; b] ++ sa :: concat ms ++ [e])) ->
  (1 <= k <= Z.of_nat n)%Z /\ k <> a /\ k <> b /\ k <> sa /\ k <> e /\ ~ In k (concat ms) /\ spared_two an a b axis k /\ spared_chain o sa ms e c axis k.
Proof.
  intros H. apply free_legs_In in H as [R H]. cbn [app] in H.
  assert (k <> a /\ k <> b) as [Na Nb] by (cbn in H; intuition congruence).
  assert (N : ~ In k (sa :: concat ms ++ [e])) by (cbn in H |- *; intuition congruence).
  apply notin_lNB in N as (N1 & N2 & N3). repeat split; auto; try lia; try congruence. unfold spared_two. cbn. intuition congruence.
Qed.
(* one end of the chain *)
Lemma start_spared an a b o (sa : Z) ms (e : Z) c : o <> OLt -> c = end_of o (length ms) ->
  (negb (zmem sa [a; b]) || obr_eqb (o_of an) o)%bool = true -> (negb (Z.eqb sa e) || Nat.even (length ms))%bool = true -> ~ In sa (concat ms) ->
  spared_two an a b (spare (is_angle o)) sa /\ spared_chain o sa ms e c (spare (is_angle o)) sa.
Proof.
  intros No Ec H1 H2 H3. rewrite angle_is. unfold spared_two, spared_chain. rewrite !spare_sq. split; [|split; [exact H3|split; [reflexivity|]]].
  - intros I. apply orb_true_iff in H1 as [H1|H1]; [apply negb_true_iff, zmem_false in H1; contradiction|]. symmetry. apply obr_eqb_ok; assumption.
  - intros <-. rewrite Z.eqb_refl in H2. apply (end_even o (length ms) c No Ec H2).
Qed.
Lemma end_spared an a b o (sa : Z) ms (e : Z) c : o <> OLt -> c = end_of o (length ms) ->
  (negb (zmem e [a; b]) || cbr_eqb (c_of an) c)%bool = true -> (negb (Z.eqb sa e) || Nat.even (length ms))%bool = true -> ~ In e (concat ms) ->
  spared_two an a b (spare (is_angle_c c)) e /\ spared_chain o sa ms e c (spare (is_angle_c c)) e.
Proof.
  intros No Ec H1 H2 H3. rewrite angle_isc. unfold spared_two, spared_chain. rewrite !spare_sq. split; [|split; [exact H3|split; [|reflexivity]]].
  - intros I. apply orb_true_iff in H1 as [H1|H1]; [apply negb_true_iff, zmem_false in H1; contradiction|]. symmetry. apply cbr_eqb_ok; assumption.
  - intros ->. rewrite Z.eqb_refl in H2. symmetry. apply (end_even o (length ms) c No Ec H2).
Qed.
Lemma mem_spared an a b o (sa : Z) ms (e : Z) c k : In k [a; b] -> ~ In k (sa :: concat ms ++ [e]) -> spared_two an a b (spare an) k /\ spared_chain o sa ms e c (spare an) k.
Proof.
  intros I N. apply notin_lNB in N as (N1 & N2 & N3). unfold spared_two, spared_chain. rewrite spare_sq. repeat split; auto; intros E; congruence.
Qed.
Lemma same_spare_o an o : o <> OLt -> obr_eqb (o_of an) o = true -> spare an = spare (is_angle o).
Proof. intros No H. rewrite angle_is, (obr_eqb_ok an o No H). reflexivity. Qed.
Lemma same_spare_c an c : cbr_eqb (c_of an) c = true -> spare an = spare (is_angle_c c).
Proof. intros H. rewrite angle_isc, (cbr_eqb_ok an c H). reflexivity. Qed.
Theorem can_fix_sound so n an a b o sa ms e c p q axis : set_like so ->
  (forall k, In k [a; b; sa; e] -> (1 <= k <= Z.of_nat n)%Z) -> o <> OLt -> c = end_of o (length ms) ->
  can_fix so n an a b (o, sa, ms, e, c) = Ok (Some (p, q, axis)) ->
  choice n p q axis /\ (spared_two an a b axis p /\ spared_two an a b axis q) /\ (spared_chain o sa ms e c axis p /\ spared_chain o sa ms e c axis q).
Proof.
  intros SO R No Ec H. unfold can_fix in H. destruct (existsb is_nil ms); [discriminate|].
  rewrite (complementary_free so n _ SO) in H by discriminate. cbn [rbind] in H.
  pose proof (free_spared n an a b o sa ms e c) as FS.
  assert (Ra : (1 <= a <= Z.of_nat n)%Z) by (apply R; cbn; auto). assert (Rb : (1 <= b <= Z.of_nat n)%Z) by (apply R; cbn; auto).
  assert (Rs : (1 <= sa <= Z.of_nat n)%Z) by (apply R; cbn; auto). assert (Re : (1 <= e <= Z.of_nat n)%Z) by (apply R; cbn; auto).
  pose proof (mem_spared an a b o sa ms e c a (or_introl eq_refl)) as MA. pose proof (mem_spared an a b o sa ms e c b (or_intror (or_introl eq_refl))) as MB.
  pose proof (start_spared an a b o sa ms e c No Ec) as SS. pose proof (end_spared an a b o sa ms e c No Ec) as SE.
  pose proof (same_spare_o an o No) as EO. pose proof (same_spare_c an c) as EC.
  pose proof (free_legs_NoDup n ([a; b] ++ sa :: concat ms ++ [e])) as ND.
  destruct (free_legs n _) as [|x [|y rest]].
  - destruct (negb (zmem a _) && negb (zmem b _))%bool; [discriminate|].
    destruct (_ && _)%bool eqn:E1 in H; [|destruct (_ && _)%bool eqn:E2 in H; [|destruct (_ && _)%bool eqn:E3 in H; [|destruct (_ && _)%bool eqn:E4 in H; [|destruct (_ && _)%bool eqn:E5 in H; [|discriminate]]]]].
    all: injection H as <- <- <-; bsplit.
    + destruct (MA ltac:(assumption)) as [A1 A2]. assert (ORB : (negb (zmem sa [a; b]) || obr_eqb (o_of an) o)%bool = true) by (apply orb_true_iff; auto).
      destruct (SS ORB ltac:(assumption) ltac:(assumption)) as [A3 A4]. rewrite <- EO in A3, A4 by assumption. pose proof (notin_lNB a sa e ms ltac:(assumption)) as (N1 & _).
      repeat split; auto; try apply spare_axis; try lia; try apply A2; try apply A4.
    + destruct (MB ltac:(assumption)) as [A1 A2]. assert (ORB : (negb (zmem sa [a; b]) || obr_eqb (o_of an) o)%bool = true) by (apply orb_true_iff; auto).
      destruct (SS ORB ltac:(assumption) ltac:(assumption)) as [A3 A4]. rewrite <- EO in A3, A4 by assumption. pose proof (notin_lNB b sa e ms ltac:(assumption)) as (N1 & _).
      repeat split; auto; try apply spare_axis; try lia; try apply A2; try apply A4.
    + destruct (MA ltac:(assumption)) as [A1 A2]. assert (ORB : (negb (zmem e [a; b]) || cbr_eqb (c_of an) c)%bool = true) by (apply orb_true_iff; auto).
      destruct (SE ORB ltac:(assumption) ltac:(assumption)) as [A3 A4]. rewrite <- EC in A3, A4 by assumption. pose proof (notin_lNB a sa e ms ltac:(assumption)) as (_ & N1 & _).
      repeat split; auto; try apply spare_axis; try lia; try apply A2; try apply A4.
    + destruct (MB ltac:(assumption)) as [A1 A2]. assert (ORB : (negb (zmem e [a; b]) || cbr_eqb (c_of an) c)%bool = true) by (apply orb_true_iff; auto).
      destruct (SE ORB ltac:(assumption) ltac:(assumption)) as [A3 A4]. rewrite <- EC in A3, A4 by assumption. pose proof (notin_lNB b sa e ms ltac:(assumption)) as (_ & N1 & _).
      repeat split; auto; try apply spare_axis; try lia; try apply A2; try apply A4.
    + assert (OP : (negb (Z.eqb sa e) || Nat.even (length ms))%bool = true) by (apply orb_true_iff; auto).
      destruct (SS ltac:(assumption) OP ltac:(assumption)) as [A1 A2]. destruct (SE ltac:(assumption) OP ltac:(assumption)) as [A3 A4].
      assert (EQ : spare (is_angle o) = spare (is_angle_c c)) by (rewrite angle_is, angle_isc; erewrite end_even by eauto; reflexivity).
      rewrite <- EQ in A3, A4. repeat split; auto; try apply spare_axis; try lia; try apply A2; try apply A4.
  - pose proof (fun ax => FS ax x (or_introl eq_refl)) as FX.
    destruct (FX 1%Z) as (Rx & Xa & Xb & Xs & Xe & _).
    assert (FX' : forall ax, spared_two an a b ax x /\ spared_chain o sa ms e c ax x) by (intros ax; apply (FX ax)). clear FX FS.
    destruct (negb (zmem a _)) eqn:E1 in H; [|destruct (negb (zmem b _)) eqn:E2 in H; [|destruct (_ && _)%bool eqn:E3 in H; [|destruct (_ && _)%bool eqn:E4 in H; [|discriminate]]]].
    all: injection H as <- <- <-; bsplit.
    + destruct (MA ltac:(assumption)) as [A1 A2]. destruct (FX' (spare an)) as [A3 A4].
      repeat split; auto; try apply spare_axis; try lia; try apply A2; try apply A4.
    + destruct (MB ltac:(assumption)) as [A1 A2]. destruct (FX' (spare an)) as [A3 A4].
      repeat split; auto; try apply spare_axis; try lia; try apply A2; try apply A4.
    + destruct (SS ltac:(assumption) ltac:(assumption) ltac:(assumption)) as [A1 A2]. destruct (FX' (spare (is_angle o))) as [A3 A4].
      repeat split; auto; try apply spare_axis; try lia; try apply A2; try apply A4.
    + destruct (SE ltac:(assumption) ltac:(assumption) ltac:(assumption)) as [A1 A2]. destruct (FX' (spare (is_angle_c c))) as [A3 A4].
      repeat split; auto; try apply spare_axis; try lia; try apply A2; try apply A4.
  - injection H as <- <- <-. inversion ND as [|? ? N1 _]; subst.
    destruct (FS 1%Z x (or_introl eq_refl)) as (Rx & _ & _ & _ & _ & _ & A1 & A2). destruct (FS 1%Z y (or_intror (or_introl eq_refl))) as (Ry & _ & _ & _ & _ & _ & A3 & A4).
    repeat split; auto; try lia; try apply A2; try apply A4. intros ->. apply N1. left. reflexivity.
Qed.
Lemma obr_eqb_back an o : o <> OLt -> angle_o o = an -> obr_eqb (o_of an) o = true.
Proof. destruct an, o; cbn; congruence. Qed.
Lemma cbr_eqb_back an o n c : o <> OLt -> c = end_of o n -> angle_c c = an -> cbr_eqb (c_of an) c = true.
Proof. unfold end_of. intros No ->. destruct an, o, (Nat.even n); cbn; congruence. Qed.
Lemma even_back o n c : o <> OLt -> c = end_of o n -> angle_c c = angle_o o -> Nat.even n = true.
Proof. unfold end_of. intros No ->. destruct (Nat.even n), o; cbn; congruence. Qed.
Theorem can_fix_complete so n an a b o sa ms e c x q axis : set_like so -> o <> OLt -> c = end_of o (length ms) ->
  free_legs n ([a; b] ++ sa :: concat ms ++ [e]) = [x] -> can_fix so n an a b (o, sa, ms, e, c) = Ok None ->
  (1 <= q <= Z.of_nat n)%Z -> q <> x -> ~ (spared_two an a b axis q /\ spared_chain o sa ms e c axis q).
Proof.
  intros SO No Ec F H Rq Nq [S2 (C1 & C2 & C3)]. unfold can_fix in H. destruct (existsb is_nil ms); [discriminate|].
  rewrite (complementary_free so n _ SO) in H by discriminate. cbn [rbind] in H. rewrite F in H.
  assert (IN : In q ([a; b] ++ sa :: concat ms ++ [e])).
  { destruct (in_dec Z.eq_dec q ([a; b] ++ sa :: concat ms ++ [e])) as [I|I]; [exact I|].
    assert (J : In q [x]) by (rewrite <- F; apply free_legs_In; auto). destruct J as [J|[]]. congruence. }
  destruct (negb (zmem a _)) eqn:E1 in H; [discriminate|]. destruct (negb (zmem b _)) eqn:E2 in H; [discriminate|].
  destruct (_ && _)%bool eqn:E3 in H; [discriminate|]. destruct (_ && _)%bool eqn:E4 in H; [discriminate|]. clear H.
  apply negb_false_iff, zmem_true in E1, E2.
  assert (IN' : In q (sa :: concat ms ++ [e])) by (apply in_app_iff in IN as [[<-|[<-|[]]]|IN]; assumption).
  assert (q = sa \/ q = e) as [->| ->].
  { destruct IN' as [->|IN']; [auto|]. apply in_app_iff in IN' as [IN'|[->|[]]]; [contradiction|auto]. }
  - revert E3. apply not_false_iff_true. apply andb_true_iff. split; [|apply andb_true_iff; split].
    + apply orb_true_iff. destruct (zmem sa [a; b]) eqn:M; [right|left; reflexivity]. apply obr_eqb_back; auto.
      apply zmem_true in M. rewrite (C2 eq_refl). symmetry. apply S2, M.
    + apply orb_true_iff. destruct (Z.eqb_spec sa e) as [->|N]; [right|left; reflexivity].
      apply (even_back o _ c No Ec). rewrite (C2 eq_refl), (C3 eq_refl). reflexivity.
    + apply negb_true_iff, zmem_false, C1.
  - revert E4. apply not_false_iff_true. apply andb_true_iff. split; [|apply andb_true_iff; split].
    + apply orb_true_iff. destruct (zmem e [a; b]) eqn:M; [right|left; reflexivity]. apply (cbr_eqb_back an o _ c No Ec).
      apply zmem_true in M. rewrite (C3 eq_refl). symmetry. apply S2, M.
    + apply orb_true_iff. destruct (Z.eqb_spec sa e) as [->|N]; [right|left; reflexivity].
      apply (even_back o _ c No Ec). rewrite (C2 eq_refl), (C3 eq_refl). reflexivity.
    + apply negb_true_iff, zmem_false, C1.
Qed.

(* ---- how_to_fix_mom_cons of two three-brackets ---- *)
Lemma count_cons x y (l : list Z) : count x (y :: l) = ((if Z.eqb x y then 1 else 0) + count x l)%nat.
Proof. unfold count. cbn [filter]. destruct (Z.eqb x y); reflexivity. Qed.
Lemma count_app x (l l' : list Z) : count x (l ++ l') = (count x l + count x l')%nat.
Proof. unfold count. rewrite filter_app, app_length. reflexivity. Qed.
Lemma count_pos x (l : list Z) : In x l -> (1 <= count x l)%nat.
Proof.
  intros H. unfold count. assert (I : In x (filter (Z.eqb x) l)) by (apply filter_In; split; [exact H|apply Z.eqb_refl]).
  destruct (filter _ l); [destruct I|cbn; lia].
Qed.
Lemma alone_start an (sa : Z) m (e : Z) : Nat.eqb (count sa (sa :: m ++ [e])) 1 = true -> sa <> e /\ ~ In sa m /\ spared_three an sa m e (spare an) sa.
Proof.
  intros H. apply Nat.eqb_eq in H. rewrite count_cons, Z.eqb_refl, count_app, count_cons in H.
  assert (N : sa <> e) by (intros ->; rewrite Z.eqb_refl in H; lia). assert (M : ~ In sa m) by (intros M; apply count_pos in M; lia).
  split; [exact N|]. split; [exact M|]. unfold spared_three. rewrite spare_sq. repeat split; auto; intros; congruence.
Qed.
Lemma alone_end an (sa : Z) m (e : Z) : Nat.eqb (count e (sa :: m ++ [e])) 1 = true -> sa <> e /\ ~ In e m /\ spared_three an sa m e (spare (negb an)) e.
Proof.
  intros H. apply Nat.eqb_eq in H. rewrite count_cons, count_app, count_cons, Z.eqb_refl in H.
  assert (N : sa <> e) by (intros ->; rewrite Z.eqb_refl in H; lia). assert (M : ~ In e m) by (intros M; apply count_pos in M; lia).
  split; [exact N|]. split; [exact M|]. unfold spared_three. rewrite spare_sq, negb_involutive. repeat split; auto; intros; congruence.
Qed.
Lemma out_three an (sa : Z) m (e : Z) axis k : ~ In k (sa :: m ++ [e]) -> spared_three an sa m e axis k /\ k <> sa /\ k <> e.
Proof.
  intros H. assert (k <> sa /\ k <> e /\ ~ In k m) as (N1 & N2 & N3) by (cbn in H; rewrite in_app_iff in H; cbn in H; intuition congruence).
  unfold spared_three. intuition congruence.
Qed.
Lemma full3_inv x u : full3 x = Ok u -> let '(_, _, m, _) := x in m <> [].
Proof. destruct x as [[[an sa] m] e]. unfold full3. destruct m; cbn; congruence. Qed.
Theorem how3_sound so n an0 (s0 : Z) m0 (e0 : Z) an1 (s1 : Z) m1 (e1 : Z) p q axis : set_like so ->
  (forall k, In k [s0; e0; s1; e1] -> (1 <= k <= Z.of_nat n)%Z) ->
  how3 so n (an0, s0, m0, e0) (an1, s1, m1, e1) = Ok (Some (p, q, axis)) ->
  m0 <> [] /\ m1 <> [] /\ choice n p q axis /\
  (spared_three an0 s0 m0 e0 axis p /\ spared_three an0 s0 m0 e0 axis q) /\ (spared_three an1 s1 m1 e1 axis p /\ spared_three an1 s1 m1 e1 axis q).
Proof.
  intros SO R H. unfold how3 in H.
  destruct (full3 (an0, s0, m0, e0)) eqn:F0; [|discriminate]. destruct (full3 (an1, s1, m1, e1)) eqn:F1; [|discriminate].
  apply full3_inv in F0, F1. cbn [rbind] in H. split; [exact F0|]. split; [exact F1|].
  cbn [all3] in H. rewrite (complementary_free so n _ SO) in H by discriminate. cbn [rbind] in H.
  assert (R0 : (1 <= s0 <= Z.of_nat n)%Z) by (apply R; cbn; auto). assert (R1 : (1 <= e0 <= Z.of_nat n)%Z) by (apply R; cbn; auto).
  assert (R2 : (1 <= s1 <= Z.of_nat n)%Z) by (apply R; cbn; auto). assert (R3 : (1 <= e1 <= Z.of_nat n)%Z) by (apply R; cbn; auto).
  assert (FS : forall axis k, In k (free_legs n ((s0 :: m0 ++ [e0]) ++ s1 :: m1 ++ [e1])) -> (1 <= k <= Z.of_nat n)%Z /\
     spared_three an0 s0 m0 e0 axis k /\ spared_three an1 s1 m1 e1 axis k /\ k <> s0 /\ k <> e0 /\ k <> s1 /\ k <> e1).
  { intros ax k I. apply free_legs_In in I as [I1 I2]. rewrite in_app_iff in I2.
    destruct (out_three an0 s0 m0 e0 ax k) as (A & B & C); [tauto|]. destruct (out_three an1 s1 m1 e1 ax k) as (A' & B' & C'); [tauto|]. auto 10. }
  pose proof (free_legs_NoDup n ((s0 :: m0 ++ [e0]) ++ s1 :: m1 ++ [e1])) as ND.
  destruct (free_legs n _) as [|x [|y rest]].
  - destruct (Bool.eqb an0 an1) eqn:AN in H.
    + apply eqb_prop in AN. subst an1. destruct (_ && _)%bool eqn:E in H; [|discriminate]. injection H as <- <- <-. bsplit.
      destruct (alone_start an0 s0 m0 e0 ltac:(assumption)) as (_ & _ & A1). destruct (alone_start an0 s1 m1 e1 ltac:(assumption)) as (_ & _ & A2).
      destruct (out_three an0 s1 m1 e1 (spare an0) s0 ltac:(assumption)) as (A3 & N & _). destruct (out_three an0 s0 m0 e0 (spare an0) s1 ltac:(assumption)) as (A4 & _).
      repeat split; auto; try apply spare_axis; try lia; try apply A1; try apply A2; try apply A3; try apply A4.
    + destruct an0; (destruct (_ && _)%bool eqn:E in H; [|discriminate]); injection H as <- <- <-; bsplit; destruct an1; try discriminate.
      * destruct (alone_start true s0 m0 e0 ltac:(assumption)) as (_ & _ & A1). destruct (alone_end false s1 m1 e1 ltac:(assumption)) as (_ & _ & A2).
        destruct (out_three false s1 m1 e1 2 s0 ltac:(assumption)) as (A3 & _ & N). destruct (out_three true s0 m0 e0 2 e1 ltac:(assumption)) as (A4 & _).
        repeat split; auto; try lia; try apply A1; try apply A2; try apply A3; try apply A4.
      * destruct (alone_end false s0 m0 e0 ltac:(assumption)) as (_ & _ & A1). destruct (alone_start true s1 m1 e1 ltac:(assumption)) as (_ & _ & A2).
        destruct (out_three true s1 m1 e1 2 e0 ltac:(assumption)) as (A3 & N & _). destruct (out_three false s0 m0 e0 2 s1 ltac:(assumption)) as (A4 & _).
        repeat split; auto; try lia; try apply A1; try apply A2; try apply A3; try apply A4.
  - pose proof (fun ax => FS ax x (or_introl eq_refl)) as FX. clear FS.
    destruct (Bool.eqb an0 an1) eqn:AN in H; [|discriminate]. apply eqb_prop in AN. subst an1. cbn [negb] in H.
    destruct (_ && _)%bool eqn:E1 in H; [|destruct (_ && _)%bool eqn:E2 in H; [|destruct (_ && _)%bool eqn:E3 in H; [|destruct (_ && _)%bool eqn:E4 in H; [|discriminate]]]].
    all: injection H as <- <- <-; bsplit.
    + destruct (FX (spare (negb an0))) as (Rx & A1 & A2 & N1 & N2 & N3 & N4).
      repeat split; auto; try apply spare_axis; try lia; try apply A1; try apply A2; rewrite ?spare_sq, ?negb_involutive; intros; try contradiction; try congruence; auto.
    + destruct (FX (spare an0)) as (Rx & A1 & A2 & N1 & N2 & N3 & N4).
      repeat split; auto; try apply spare_axis; try lia; try apply A1; try apply A2; rewrite ?spare_sq, ?negb_involutive; intros; try contradiction; try congruence; auto.
    + destruct (FX (spare (negb an0))) as (Rx & A1 & A2 & N1 & N2 & N3 & N4).
      repeat split; auto; try apply spare_axis; try lia; try apply A1; try apply A2; rewrite ?spare_sq, ?negb_involutive; intros; try contradiction; try congruence; auto.
    + destruct (FX (spare an0)) as (Rx & A1 & A2 & N1 & N2 & N3 & N4).
      repeat split; auto; try apply spare_axis; try lia; try apply A1; try apply A2; rewrite ?spare_sq, ?negb_involutive; intros; try contradiction; try congruence; auto.
  - injection H as <- <- <-. inversion ND as [|? ? N1 _]; subst.
    destruct (FS 1%Z x (or_introl eq_refl)) as (Rx & A1 & A2 & _). destruct (FS 1%Z y (or_intror (or_introl eq_refl))) as (Ry & A3 & A4 & _).
    repeat split; auto; try lia; try apply A1; try apply A2; try apply A3; try apply A4. intros ->. apply N1. left. reflexivity.
Qed.

(* ---- the closed formulas ---- *)
Lemma formula3_ok (lA rB lB rC lC v : v2 K) X Y :
  formula3 (e0 lA) (e1 lA) (e0 rB) (e1 rB) (e0 lB) (e1 lB) (e0 rC) (e1 rC) (e0 lC) (e1 lC) X Y = Ok v ->
  let b2 an (x y : v2 K) := if an : bool then vdot (raise_r x) y else vdot x (raise_r y) in
  b2 true v rB * b2 false lB lA + b2 true v rC * b2 false lC lA = X /\
  b2 true rB v * b2 false lA lB + b2 true rB rC * b2 false lC lB = Y.
Proof.
  destruct lA as [c1 d1], rB as [a6 b6], lB as [c6 d6], rC as [a2 b2'], lC as [c2 d2]. cbn [e0 e1]. unfold formula3. intros H.
  destruct (divE _ _) as [a|] eqn:Ea in H; [|discriminate]. cbn [rbind] in H. destruct (divE _ _) as [b|] eqn:Eb in H; [|discriminate]. cbn [rbind] in H.
  injection H as <-. apply divE_inv in Ea as [Na Ea]. apply divE_inv in Eb as [Nb Eb].
  cbn zeta. unfold raise_r. unfold_vec. cbn [e0 e1]. subst a b. split; field; auto.
  all: assert (N1 : c6 * d1 - c1 * d6 <> 0) by (intros Z; apply Nb; rewrite Z; ring).
  all: assert (N2 : c2 * d1 - c1 * d2 <> 0) by (intros Z; apply Nb; rewrite Z; ring).
  all: assert (N3 : - (a6 * b2') + a2 * b6 <> 0) by (intros Z; apply Nb; rewrite Z; ring).
  all: repeat split; assumption.
Qed.
End More.
