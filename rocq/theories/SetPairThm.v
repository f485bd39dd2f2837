(* Proofs about SetPair.v. *)
From Coq Require Import List ZArith Bool Lia Ring Field Permutation.
From Verif Require Import Base Fld Particle ParticleSpec ParticleThm Index IndexThm Phase PhaseSpec PhaseThm
  Arcs ArcsThm Compute ComputeSpec ComputeThm ComputeThm2 SetOne SetSpec SetThm SetThm2 SetPair SetPairSpec.
Import ListNotations.

Section Pair.
Context {K : Fld}.
Open Scope fld_scope.
Add Field Kset10 : (fth K).
Implicit Types (s : ps K) (r l : Z -> v2 K) (k : Z) (X v w : K).

Lemma feqb_refl (x : K) : feqb x x = true.
Proof. apply feqb_ok. reflexivity. Qed.
Lemma up_to_sign_inv (x v : K) : up_to_sign x v = true -> x = v \/ x = - v.
Proof. unfold up_to_sign. rewrite orb_true_iff. intros [H|H]; apply feqb_ok in H; auto. Qed.

(* ---- C40 for _set_pair ---- *)
Lemma pair_checked_inv (inner : QM pair_ret) (value : ps K -> target -> result K) t1 v1 t2 v2 s s' :
  pair_checked inner value t1 v1 t2 v2 s = (s', Ok tt) ->
  exists ret, inner s = (s', Ok ret) /\ on_shell_point s' /\
    match ret with
    | PNone => plus_minus (value s' t1) v1 /\ plus_minus (value s' t2) v2
    | PSwitch u1 u2 => plus_minus (value s' u1) v1 /\ plus_minus (value s' u2) v2
    | PNotImplemented => False
    end.
Proof.
  unfold pair_checked. intros H. apply bind_inv in H as (s1 & rt & E1 & H).
  assert (G : forall u1 u2, bind get (fun st => bind (lift (value st u1)) (fun x1 => bind (lift (value st u2)) (fun x2 =>
      if negb (mom_cons_check st) then raise MyException else if negb (onshell_check st) then raise MyException
      else if (up_to_sign x1 v1 && up_to_sign x2 v2)%bool then ret tt else raise MyException))) s1 = (s', Ok tt) ->
      s1 = s' /\ on_shell_point s' /\ plus_minus (value s' u1) v1 /\ plus_minus (value s' u2) v2).
  { intros u1 u2 G. rewrite bind_get in G. apply bind_lift_inv in G as (x1 & X1 & G). apply bind_lift_inv in G as (x2 & X2 & G).
    destruct (mom_cons_check s1) eqn:M; [|discriminate]. destruct (onshell_check s1) eqn:O; [|discriminate]. cbn [negb] in G.
    destruct (up_to_sign x1 v1 && up_to_sign x2 v2)%bool eqn:U; [|discriminate]. inversion G; subst s'.
    apply andb_true_iff in U as [U1 U2]. split; [reflexivity|]. split; [apply checks_inv; assumption|].
    unfold plus_minus. rewrite X1, X2. apply up_to_sign_inv in U1, U2. split; [destruct U1 as [->| ->]|destruct U2 as [->| ->]]; auto. }
  exists rt. destruct rt as [|u1 u2|]; cbn [bind ret] in H.
  - destruct (G t1 t2 H) as (-> & P & A & B). auto.
  - destruct (G u1 u2 H) as (-> & P & A & B). auto.
  - discriminate.
Qed.

(* ---- two-brackets ---- *)
Definition br (an : bool) r l (a b : Z) : K := if an then vdot (raise_r (r a)) (r b) else vdot (l a) (raise_r (l b)).
Definition fc (an : bool) r l (a : Z) : K := if an then e1 (r a) else e0 (l a).
Lemma br_swap an r l a b : br an r l b a = - br an r l a b.
Proof. unfold br, raise_r. destruct an; unfold_vec; ring. Qed.
Lemma two_value an s r l a b : view s r l -> inr s a -> inr s b -> c_target s (two an a b) = Ok (br an r l a b).
Proof.
  intros V A B. unfold two, br. destruct an; cbn [c_target compute scalar].
  - rewrite (A2_view s r l a b V A B). reflexivity.
  - rewrite (S2_view s r l a b V A B). reflexivity.
Qed.
Lemma first_of_view an s r l k : view s r l -> inr s k -> first_of an s k = Some (fc an r l k).
Proof. intros V H. unfold first_of, fc. destruct an; [apply (first_r_view s r l k V H)|apply (first_l_view s r l k V H)]. Qed.

Lemma set_only_ok cv so t X mode s s' : set_inner cv so t X false mode s = (s', Ok tt) -> c_target s' t = Ok X -> set_only cv so t X mode s = (s', Ok tt).
Proof.
  intros E V. unfold set_only, set_, set_checked. rewrite (bind_ok _ _ _ _ _ E), bind_get, (bind_lift _ _ _ _ V).
  rewrite (bind_ok _ _ _ s' tt) by reflexivity. rewrite feqb_refl. reflexivity.
Qed.
Lemma set_only_two cv so an s r l a b X mode : set_like so -> view s r l -> inr s a -> inr s b -> a <> b ->
  (fc an r l a = 0 -> set_only cv so (two an a b) X mode s = (s, Err ZeroDivisionError)) /\
  (fc an r l a <> 0 -> exists s' r' l', set_only cv so (two an a b) X mode s = (s', Ok tt) /\ view s' r' l' /\ step s s' [b] /\
     br an r' l' a b = X /\ (if an then l' = l /\ (forall k, k <> b -> r' k = r k) else r' = r /\ (forall k, k <> b -> l' k = l k))).
Proof.
  intros SO V A B N. destruct an; cbn [fc two br].
  - destruct (set_A2_view cv so s r l a b X SO V A B N) as [H1 H2]. split.
    + intros Z. apply set_err. apply H1, Z.
    + intros Z. destruct (H2 Z) as (s' & v & E & V' & T & EX & _). exists s', (upd r b v), l.
      assert (EV : vdot (raise_r (upd r b v a)) (upd r b v b) = X) by (rewrite upd_other by auto; rewrite upd_same; exact EX).
      split; [|split; [exact V'|split; [exact T|split; [exact EV|split; [reflexivity|intros k Hk; apply upd_other; auto]]]]].
      apply set_only_ok; [exact E|]. pose proof (two_value true s' _ _ a b V' (inr_step _ _ _ _ T A) (inr_step _ _ _ _ T B)) as TV.
      etransitivity; [exact TV|]. cbn [br]. rewrite EV. reflexivity.
  - destruct (set_S2_view cv so s r l a b X SO V A B N) as [H1 H2]. split.
    + intros Z. apply set_err. apply H1, Z.
    + intros Z. destruct (H2 Z) as (s' & v & E & V' & T & EX & _). exists s', r, (upd l b v).
      assert (EV : vdot (upd l b v a) (raise_r (upd l b v b)) = X) by (rewrite upd_other by auto; rewrite upd_same; exact EX).
      split; [|split; [exact V'|split; [exact T|split; [exact EV|split; [reflexivity|intros k Hk; apply upd_other; auto]]]]].
      apply set_only_ok; [exact E|]. pose proof (two_value false s' _ _ a b V' (inr_step _ _ _ _ T A) (inr_step _ _ _ _ T B)) as TV.
      etransitivity; [exact TV|]. cbn [br]. rewrite EV. reflexivity.
Qed.

(* the two sets, one after the other *)
Lemma set_two_then {B} cv so an1 an2 s r l a b c d w1 w2 (f : unit -> QM B) : set_like so -> view s r l ->
  inr s a -> inr s b -> inr s c -> inr s d -> a <> b -> c <> d -> (an1 = an2 -> b <> c /\ b <> d /\ d <> a) ->
  let prog := bind (set_only cv so (two an1 a b) w1 1) (fun _ => bind (set_only cv so (two an2 c d) w2 1) f) in
  (fc an1 r l a = 0 \/ fc an2 r l c = 0 -> snd (prog s) = Err ZeroDivisionError) /\
  (fc an1 r l a <> 0 -> fc an2 r l c <> 0 -> exists s' r' l', prog s = f tt s' /\ view s' r' l' /\ step s s' [b; d] /\
     br an1 r' l' a b = w1 /\ br an2 r' l' c d = w2 /\
     (forall k, k <> b -> k <> d -> r' k = r k /\ l' k = l k)).
Proof.
  intros SO V A B' C D N1 N2 DIS prog.
  destruct (set_only_two cv so an1 s r l a b w1 1 SO V A B' N1) as [E1 E2].
  destruct (feq_dec (fc an1 r l a)) as [Z1|Z1].
  { split; [|intros H; contradiction]. intros _. unfold prog. rewrite (bind_err _ _ _ _ _ (E1 Z1)). reflexivity. }
  destruct (E2 Z1) as (s1 & r1 & l1 & F1 & V1 & T1 & X1 & K1).
  pose proof (fun k => inr_step _ _ _ k T1) as I1.
  destruct (set_only_two cv so an2 s1 r1 l1 c d w2 1 SO V1 (I1 c C) (I1 d D) N2) as [G1 G2].
  assert (FC : fc an2 r1 l1 c = fc an2 r l c).
  { unfold fc. destruct an1, an2; destruct K1 as [Ka Kb]; rewrite ?Ka; try reflexivity; rewrite Kb; auto; destruct DIS; auto. }
  unfold prog. rewrite (bind_ok _ _ _ _ _ F1). split.
  - intros [H|H]; [contradiction|]. rewrite (bind_err _ _ _ _ _ (G1 ltac:(congruence))). reflexivity.
  - intros _ Z2. destruct (G2 ltac:(congruence)) as (s2 & r2' & l2' & F2 & V2 & T2 & X2 & K2).
    exists s2, r2', l2'. rewrite (bind_ok _ _ _ _ _ F2).
    assert (EB : br an1 r2' l2' a b = w1).
    { rewrite <- X1. unfold br. destruct an1, an2; destruct K2 as [Ka Kb]; rewrite ?Ka; try reflexivity.
      - destruct DIS as (D1 & D2 & D3); [reflexivity|]. rewrite !Kb; auto.
      - destruct DIS as (D1 & D2 & D3); [reflexivity|]. rewrite !Kb; auto. }
    assert (KK : forall k, k <> b -> k <> d -> r2' k = r k /\ l2' k = l k).
    { intros k Hb Hd. destruct an1, an2; destruct K1 as [Ka Kb], K2 as [Kc Kd]; subst; split; auto; try (rewrite Kd by auto; auto); auto. }
    split; [reflexivity|]. split; [exact V2|]. split; [apply (step_trans _ _ _ _ _ T1 T2)|]. auto.
Qed.

(* what pair_two_two does, for two different brackets *)
Lemma pair_shape cv so an1 a b v1 an2 c d v2 s : a <> b -> c <> d -> ~ same_bracket an1 a b an2 c d ->
  exists x1 y1 w1 x2 y2 w2,
    x1 = lead (Bool.eqb an1 an2) a b c d /\ y1 = (a + b - x1)%Z /\ x2 = lead (Bool.eqb an1 an2) c d a b /\ y2 = (c + d - x2)%Z /\
    In x1 [a; b] /\ In y1 [a; b] /\ In x2 [c; d] /\ In y2 [c; d] /\ x1 <> y1 /\ x2 <> y2 /\
    (an1 = an2 -> y1 <> x2 /\ y1 <> y2 /\ y2 <> x1) /\
    (forall r l, br an1 r l x1 y1 = w1 -> br an1 r l a b = v1) /\
    (forall r l, br an2 r l x2 y2 = w2 -> br an2 r l c d = v2) /\
    pair_two_two cv so an1 a b v1 an2 c d v2 s =
      bind (set_only cv so (two an1 x1 y1) w1 1) (fun _ => bind (set_only cv so (two an2 x2 y2) w2 1)
        (fun _ => bind get (fun s => bind (lift (complementary so (length s) [a; b; c; d]))
          (fun plist => bind (fix_after cv an1 a b plist) (fun _ => ret PNone))))) s.
Proof.
  intros N1 N2 NS.
  assert (G : forall x1 y1 w1 x2 y2 w2, x1 = lead (Bool.eqb an1 an2) a b c d -> y1 = (a + b - x1)%Z -> x2 = lead (Bool.eqb an1 an2) c d a b -> y2 = (c + d - x2)%Z ->
    ((x1 = a /\ y1 = b /\ w1 = v1) \/ (x1 = b /\ y1 = a /\ w1 = - v1)) -> ((x2 = c /\ y2 = d /\ w2 = v2) \/ (x2 = d /\ y2 = c /\ w2 = - v2)) ->
    (an1 = an2 -> y1 <> x2 /\ y1 <> y2 /\ y2 <> x1) ->
    pair_two_two cv so an1 a b v1 an2 c d v2 s =
      bind (set_only cv so (two an1 x1 y1) w1 1) (fun _ => bind (set_only cv so (two an2 x2 y2) w2 1)
        (fun _ => bind get (fun s => bind (lift (complementary so (length s) [a; b; c; d]))
          (fun plist => bind (fix_after cv an1 a b plist) (fun _ => ret PNone))))) s ->
    exists x1 y1 w1 x2 y2 w2,
    x1 = lead (Bool.eqb an1 an2) a b c d /\ y1 = (a + b - x1)%Z /\ x2 = lead (Bool.eqb an1 an2) c d a b /\ y2 = (c + d - x2)%Z /\
    In x1 [a; b] /\ In y1 [a; b] /\ In x2 [c; d] /\ In y2 [c; d] /\ x1 <> y1 /\ x2 <> y2 /\
    (an1 = an2 -> y1 <> x2 /\ y1 <> y2 /\ y2 <> x1) /\
    (forall r l, br an1 r l x1 y1 = w1 -> br an1 r l a b = v1) /\
    (forall r l, br an2 r l x2 y2 = w2 -> br an2 r l c d = v2) /\
    pair_two_two cv so an1 a b v1 an2 c d v2 s =
      bind (set_only cv so (two an1 x1 y1) w1 1) (fun _ => bind (set_only cv so (two an2 x2 y2) w2 1)
        (fun _ => bind get (fun s => bind (lift (complementary so (length s) [a; b; c; d]))
          (fun plist => bind (fix_after cv an1 a b plist) (fun _ => ret PNone))))) s).
  { intros x1 y1 w1 x2 y2 w2 E1 E2 E3 E4 C1 C2 D E. exists x1, y1, w1, x2, y2, w2.
    do 4 (split; [assumption|]).
    split; [destruct C1 as [(-> & _)|(-> & _)]; cbn; auto|]. split; [destruct C1 as [(_ & -> & _)|(_ & -> & _)]; cbn; auto|].
    split; [destruct C2 as [(-> & _)|(-> & _)]; cbn; auto|]. split; [destruct C2 as [(_ & -> & _)|(_ & -> & _)]; cbn; auto|].
    split; [destruct C1 as [(-> & -> & _)|(-> & -> & _)]; auto|]. split; [destruct C2 as [(-> & -> & _)|(-> & -> & _)]; auto|].
    split; [exact D|].
    split; [intros r l; destruct C1 as [(-> & -> & ->)|(-> & -> & ->)]; [auto|rewrite br_swap; intros H; transitivity (- - br an1 r l a b); [ring|rewrite H; ring]]|].
    split; [intros r l; destruct C2 as [(-> & -> & ->)|(-> & -> & ->)]; [auto|rewrite br_swap; intros H; transitivity (- - br an2 r l c d); [ring|rewrite H; ring]]|].
    exact E. }
  unfold pair_two_two in *. unfold same_bracket in NS. unfold lead in *. cbn [zmem existsb filter] in *.
  destruct (Bool.eqb an1 an2) eqn:EA.
  - apply Bool.eqb_prop in EA.
    assert (NS' : ~ ((a = c /\ b = d) \/ (a = d /\ b = c))) by tauto. clear NS.
    rewrite !(Z.eqb_sym c), !(Z.eqb_sym d) in *. revert G.

    destruct (Z.eqb_spec a c), (Z.eqb_spec a d), (Z.eqb_spec b c), (Z.eqb_spec b d); try (exfalso; subst; tauto);
    cbn [orb negb andb filter last_opt last bound]; rewrite ?Z.eqb_refl; intros G.
    all: [> apply (G a b v1 c d v2) | apply (G a b v1 d c (- v2)) | apply (G b a (- v1) c d v2) | apply (G b a (- v1) d c (- v2)) | apply (G a b v1 c d v2)];
      try lia; try tauto; try (intros _; lia); try reflexivity.
    all: repeat match goal with |- context [Z.eqb ?x ?y] => destruct (Z.eqb_spec x y); try lia end; subst; reflexivity.
  - eapply (G a b v1 c d v2); cbn [andb]; try lia; auto. 
    + intros ->. rewrite Bool.eqb_reflx in EA. discriminate.
    + repeat match goal with |- context [Z.eqb ?x ?y] => destruct (Z.eqb x y) end; reflexivity.
Qed.

Lemma inr_of s (l : list Z) k : legs_of s l -> In k l -> inr s k.
Proof. intros H I. apply (H k I). Qed.
Lemma br_keep an r l r' l' a b : r' a = r a -> l' a = l a -> r' b = r b -> l' b = l b -> br an r' l' a b = br an r l a b.
Proof. intros A B C D. unfold br. rewrite A, B, C, D. reflexivity. Qed.

Lemma inner_two cv so other fuel an1 a b v1 an2 c d v2 s :
  set_pair_inner cv so other (Datatypes.S fuel) (two an1 a b) v1 (two an2 c d) v2 s = pair_two_two cv so an1 a b v1 an2 c d v2 s.
Proof. destruct an1, an2; reflexivity. Qed.
Lemma pair_checked_ok (inner : QM pair_ret) value t1 v1 t2 v2 s s' : inner s = (s', Ok PNone) ->
  value s' t1 = Ok v1 -> value s' t2 = Ok v2 -> total_mom s' = mzero -> Forall (fun p => fresh p) s' ->
  pair_checked inner value t1 v1 t2 v2 s = (s', Ok tt).
Proof.
  intros E V1 V2 M O. unfold pair_checked. rewrite (bind_ok _ _ _ _ _ E). rewrite (bind_ok _ _ _ s' (t1, t2)) by reflexivity.
  rewrite bind_get. cbn [fst snd]. rewrite (bind_lift _ _ _ _ V1), (bind_lift _ _ _ _ V2).
  destruct (checks_ok s' M O) as [-> ->]. unfold up_to_sign. rewrite !feqb_refl. reflexivity.
Qed.
Lemma pair_checked_err (inner : QM pair_ret) value t1 v1 t2 v2 s e : snd (inner s) = Err e -> snd (pair_checked inner value t1 v1 t2 v2 s) = Err e.
Proof. intros E. unfold pair_checked. destruct (inner s) as [s' rr] eqn:F. cbn in E. subst. rewrite (bind_err _ _ _ _ _ F). reflexivity. Qed.

(* C54: at least two free legs *)
Theorem pair_two_free cv so other fuel an1 a b v1 an2 c d v2 s p q rest : set_like so -> Forall (fun x => fresh x) s ->
  legs_of s [a; b; c; d] -> a <> b -> c <> d -> ~ same_bracket an1 a b an2 c d ->
  free_legs (length s) [a; b; c; d] = p :: q :: rest ->
  let x1 := lead (Bool.eqb an1 an2) a b c d in let x2 := lead (Bool.eqb an1 an2) c d a b in
  (first_of an1 s x1 <> Some 0 -> first_of an2 s x2 <> Some 0 -> nz (c_S2 s p q) ->
     exists s', set_pair cv so other (Datatypes.S fuel) (two an1 a b) v1 (two an2 c d) v2 s = (s', Ok tt) /\
       made2 s s' (two an1 a b) v1 (two an2 c d) v2 [a + b - x1; c + d - x2; p; q]%Z /\ keeps_l s s' p /\ keeps_l s s' q) /\
  (first_of an1 s x1 = Some 0 \/ first_of an2 s x2 = Some 0 \/ c_S2 s p q = Ok 0 ->
     snd (set_pair cv so other (Datatypes.S fuel) (two an1 a b) v1 (two an2 c d) v2 s) = Err ZeroDivisionError).
Proof.
  intros SO F L N1 N2 NS FL x1 x2.
  pose proof (view_of s F) as V. set (r := rs s) in *. set (l := ls s) in *.
  destruct (pair_shape cv so an1 a b v1 an2 c d v2 s N1 N2 NS) as (X1 & Y1 & w1 & X2 & Y2 & w2 & E1 & E2 & E3 & E4 & I1 & I2 & I3 & I4 & D1 & D2 & DIS & R1 & R2 & SH).
  fold x1 in E1. fold x2 in E3. rewrite <- E1, <- E3. rewrite <- E2, <- E4. clear x1 x2 E1 E2 E3 E4.
  assert (IN1 : forall k, In k [a; b] -> inr s k) by (intros k Hk; apply (inr_of s _ k L); cbn in *; tauto).
  assert (IN2 : forall k, In k [c; d] -> inr s k) by (intros k Hk; apply (inr_of s _ k L); cbn in *; tauto).
  destruct (free_two _ _ _ _ _ FL) as (P & Q & PQ & NP & NQ).
  assert (P' : inr s p) by exact P. assert (Q' : inr s q) by exact Q.
  rewrite (first_of_view an1 s r l X1 V (IN1 _ I1)), (first_of_view an2 s r l X2 V (IN2 _ I3)).
  rewrite (S2_view s r l p q V P' Q').
  assert (NX : forall k, In k [a; b] \/ In k [c; d] -> p <> k /\ q <> k).
  { intros k Hk. split; intros ->; [apply NP|apply NQ]; clear - Hk; cbn in *; tauto. }
  destruct (set_two_then cv so an1 an2 s r l X1 Y1 X2 Y2 w1 w2 (fun _ => bind get (fun s => bind (lift (complementary so (length s) [a; b; c; d]))
          (fun plist => bind (fix_after cv an1 a b plist) (fun _ => ret PNone)))) SO V (IN1 _ I1) (IN1 _ I2) (IN2 _ I3) (IN2 _ I4) D1 D2 DIS) as [B1 B2].
  cbv zeta in B1, B2. rewrite <- SH in B1, B2.
  destruct (feq_dec (fc an1 r l X1)) as [Z1|Z1]; [|destruct (feq_dec (fc an2 r l X2)) as [Z2|Z2]].
  - split; [intros H; contradict H; congruence|]. intros _. unfold set_pair. apply pair_checked_err. rewrite inner_two. apply B1. auto.
  - split; [intros _ H; contradict H; congruence|]. intros _. unfold set_pair. apply pair_checked_err. rewrite inner_two. apply B1. auto.
  - destruct (B2 Z1 Z2) as (s1 & r1 & l1 & G & V1 & T1 & G1 & G2 & KP). clear B1 B2.
    pose proof (fun k => inr_step _ _ _ k T1) as J.
    assert (LEN : length s1 = length s) by apply T1.
    rewrite bind_get, LEN, (bind_lift _ _ _ _ (complementary_free so (length s) [a; b; c; d] SO ltac:(discriminate))), FL in G.
    assert (KPp : r1 p = r p /\ l1 p = l p) by (apply KP; apply NX; auto).
    assert (KPq : r1 q = r q /\ l1 q = l q) by (apply KP; apply NX; auto).
    cbn [fix_after] in G.
    destruct (fixm_view cv s1 r1 l1 p q 1 V1 (J p P') (J q Q') PQ) as [H1 H2]. cbn [Z.eqb Pos.eqb] in H1, H2.
    destruct KPp as [Kp1 Kp2], KPq as [Kq1 Kq2]. rewrite Kp2, Kq2 in H1, H2.
    destruct (feq_dec (vdot (l p) (raise_r (l q)))) as [Z3|Z3].
    + split; [intros _ _ (y & Hy & Ny); inversion Hy; subst y; contradiction|].
      intros _. unfold set_pair. apply pair_checked_err. rewrite inner_two, G. rewrite (bind_err _ _ _ _ _ (H1 Z3)). reflexivity.
    + split; [|intros [H|[H|H]]; [inversion H|inversion H|inversion H]; contradiction].
      intros _ _ _. destruct (H2 Z3) as (s2 & r2' & l2' & FX & V2 & T2 & M & K1 & K2).
      rewrite (bind_ok _ _ _ _ _ FX) in G. exists s2.
      assert (T : step s s2 [Y1; Y2; p; q]) by (apply (step_trans _ _ _ _ _ T1 T2)).
      assert (BR : forall an x y, In x [a; b] \/ In x [c; d] -> In y [a; b] \/ In y [c; d] -> br an r2' l2' x y = br an r1 l1 x y).
      { intros an x y Hx Hy. apply NX in Hx, Hy. apply br_keep; rewrite ?K1; try reflexivity; apply K2; intuition. }
      assert (C1 : c_target s2 (two an1 a b) = Ok v1).
      { rewrite (two_value an1 s2 _ _ a b V2 (inr_step _ _ _ _ T (IN1 a ltac:(cbn; auto))) (inr_step _ _ _ _ T (IN1 b ltac:(cbn; auto)))).
        f_equal. apply R1. rewrite BR by auto. exact G1. }
      assert (C2 : c_target s2 (two an2 c d) = Ok v2).
      { rewrite (two_value an2 s2 _ _ c d V2 (inr_step _ _ _ _ T (IN2 c ltac:(cbn; auto))) (inr_step _ _ _ _ T (IN2 d ltac:(cbn; auto)))).
        f_equal. apply R2. rewrite BR by auto. exact G2. }
      pose proof (view_fresh _ _ _ V2) as FR.
      split.
      * unfold set_pair. apply pair_checked_ok; [rewrite inner_two, G; reflexivity|exact C1|exact C2|exact M|exact FR].
      * split; [constructor; auto; apply T|]. split; [apply (view_keeps_l s s2 r l r2' l2' p V V2); congruence|apply (view_keeps_l s s2 r l r2' l2' q V V2); congruence].
Qed.

(* C54: any number of free legs: what a returned call means *)
Theorem pair_two_returns cv so other fuel an1 a b v1 an2 c d v2 s s' : set_like so -> Forall (fun x => fresh x) s ->
  legs_of s [a; b; c; d] -> a <> b -> c <> d -> ~ same_bracket an1 a b an2 c d ->
  undisturbed (length s) an1 a b an2 c d ->
  set_pair cv so other (Datatypes.S fuel) (two an1 a b) v1 (two an2 c d) v2 s = (s', Ok tt) ->
  c_target s' (two an1 a b) = Ok v1 /\ c_target s' (two an2 c d) = Ok v2 /\ on_shell_point s' /\ Forall (fun x => fresh x) s'.
Proof.
  intros SO F L N1 N2 NS UN E. unfold set_pair in E. apply pair_checked_inv in E as (rt & E & PH & _). rewrite inner_two in E.
  pose proof (view_of s F) as V. set (r := rs s) in *. set (l := ls s) in *.
  destruct (pair_shape cv so an1 a b v1 an2 c d v2 s N1 N2 NS) as (X1 & Y1 & w1 & X2 & Y2 & w2 & _ & _ & _ & _ & I1 & I2 & I3 & I4 & D1 & D2 & DIS & R1 & R2 & SH).
  assert (IN1 : forall k, In k [a; b] -> inr s k) by (intros k Hk; apply (inr_of s _ k L); cbn in *; tauto).
  assert (IN2 : forall k, In k [c; d] -> inr s k) by (intros k Hk; apply (inr_of s _ k L); cbn in *; tauto).
  destruct (set_two_then cv so an1 an2 s r l X1 Y1 X2 Y2 w1 w2 (fun _ => bind get (fun s => bind (lift (complementary so (length s) [a; b; c; d]))
          (fun plist => bind (fix_after cv an1 a b plist) (fun _ => ret PNone)))) SO V (IN1 _ I1) (IN1 _ I2) (IN2 _ I3) (IN2 _ I4) D1 D2 DIS) as [B1 B2].
  cbv zeta in B1, B2. rewrite <- SH, E in B1, B2.
  destruct (feq_dec (fc an1 r l X1)) as [Z1|Z1]; [specialize (B1 (or_introl Z1)); discriminate|].
  destruct (feq_dec (fc an2 r l X2)) as [Z2|Z2]; [specialize (B1 (or_intror Z2)); discriminate|].
  destruct (B2 Z1 Z2) as (s1 & r1 & l1 & G & V1 & T1 & G1 & G2 & KP). clear B1 B2 SH E.
  pose proof (fun k => inr_step _ _ _ k T1) as J. apply R1 in G1. apply R2 in G2.
  assert (LEN : length s1 = length s) by apply T1.
  rewrite bind_get, LEN, (bind_lift _ _ _ _ (complementary_free so (length s) [a; b; c; d] SO ltac:(discriminate))) in G.
  symmetry in G. apply bind_inv in G as (s2 & [] & G & G'). inversion G'; subst s2 rt; clear G'.
  assert (FIN : forall r2 l2, view s' r2 l2 -> length s' = length s -> br an1 r2 l2 a b = v1 -> br an2 r2 l2 c d = v2 ->
     c_target s' (two an1 a b) = Ok v1 /\ c_target s' (two an2 c d) = Ok v2 /\ on_shell_point s' /\ Forall (fun x => fresh x) s').
  { intros r2' l2' V2 LL Q1 Q2.
    assert (J' : forall k, inr s k -> inr s' k) by (intros k; unfold inr; rewrite LL; auto).
    rewrite (two_value an1 s' _ _ a b V2 (J' a (IN1 a ltac:(cbn; auto))) (J' b (IN1 b ltac:(cbn; auto)))).
    rewrite (two_value an2 s' _ _ c d V2 (J' c (IN2 c ltac:(cbn; auto))) (J' d (IN2 d ltac:(cbn; auto)))).
    rewrite Q1, Q2. split; [reflexivity|]. split; [reflexivity|]. split; [exact PH|apply (view_fresh _ _ _ V2)]. }
  assert (FIXM : forall p q ax, inr s p -> inr s q -> p <> q -> fixm cv p q ax s1 = (s', Ok tt) ->
     exists r2 l2, view s' r2 l2 /\ length s' = length s /\
       (if Z.eqb ax 1 then l2 = l1 /\ (forall j, j <> p -> j <> q -> r2 j = r1 j) else r2 = r1 /\ (forall j, j <> p -> j <> q -> l2 j = l1 j))).
  { intros p q ax P Q PQ X. destruct (fixm_view cv s1 r1 l1 p q ax V1 (J p P) (J q Q) PQ) as [H1 H2].
    match type of H1 with ?dd = 0 -> _ => destruct (feq_dec dd) as [Z|Z] end.
    - rewrite (H1 Z) in X. discriminate.
    - destruct (H2 Z) as (s2 & r2' & l2' & FX & V2 & T2 & M & KK). rewrite FX in X. inversion X; subst s2. exists r2', l2'.
      split; [exact V2|]. split; [|exact KK]. destruct T2 as [T2 _]. congruence. }
  assert (AA : inr s a) by (apply IN1; cbn; auto). assert (BB : inr s b) by (apply IN1; cbn; auto).
  unfold undisturbed in UN. destruct (free_legs (length s) [a; b; c; d]) as [|p [|q rest]] eqn:FL; cbn [fix_after] in G.
  - apply bind_inv in G as (s2 & [] & G & G'). rewrite bind_get in G'. destruct (mom_cons_check s2); [|discriminate]. inversion G'; subst s2; clear G'.
    destruct (FIXM a b 1%Z AA BB N1 G) as (r2' & l2' & V2 & LL & K1 & K2). apply (FIN r2' l2' V2 LL).
    + destruct UN as [UA _]; subst an1. rewrite <- G1. unfold br. rewrite K1. reflexivity.
    + destruct UN as [-> [->|[U1 U2]]]; rewrite <- G2; [unfold br; rewrite K1; reflexivity|].
      apply br_keep; rewrite ?K1; try reflexivity; apply K2; intros ->; clear - U1 U2; cbn in *; tauto.
  - assert (FLp : In p (free_legs (length s) [a; b; c; d])) by (rewrite FL; cbn; auto). apply free_legs_In in FLp as [P1 P2].
    assert (PA : a <> p) by (intros ->; cbn in P2; tauto).
    assert (PB : b <> p) by (intros ->; cbn in P2; tauto).
    assert (PC : c <> p) by (intros ->; cbn in P2; tauto). assert (PD : d <> p) by (intros ->; cbn in P2; tauto).
    destruct an1.
    + destruct (FIXM a p 2%Z AA P1 PA G) as (r2' & l2' & V2 & LL & K1 & K2). apply (FIN r2' l2' V2 LL).
      * rewrite <- G1. unfold br. rewrite K1. reflexivity.
      * rewrite <- G2. destruct an2; [unfold br; rewrite K1; reflexivity|]. destruct UN as [U|U]; [discriminate|].
        apply br_keep; rewrite ?K1; try reflexivity; apply K2; auto; intros ->; clear - U; cbn in *; tauto.
    + destruct (FIXM a p 1%Z AA P1 PA G) as (r2' & l2' & V2 & LL & K1 & K2). apply (FIN r2' l2' V2 LL).
      * rewrite <- G1. unfold br. rewrite K1. reflexivity.
      * rewrite <- G2. destruct an2; [|unfold br; rewrite K1; reflexivity]. destruct UN as [U|U]; [discriminate|].
        apply br_keep; rewrite ?K1; try reflexivity; apply K2; auto; intros ->; clear - U; cbn in *; tauto.
  - destruct (free_two _ _ _ _ _ FL) as (P & Q & PQ & NP & NQ).
    destruct (FIXM p q 1%Z P Q PQ G) as (r2' & l2' & V2 & LL & K1 & K2). apply (FIN r2' l2' V2 LL).
    + rewrite <- G1. apply br_keep; rewrite ?K1; try reflexivity; apply K2; intros ->; clear - NP NQ; cbn in *; tauto.
    + rewrite <- G2. apply br_keep; rewrite ?K1; try reflexivity; apply K2; intros ->; clear - NP NQ; cbn in *; tauto.
Qed.

(* the same bracket twice: a local variable is read before it is assigned *)
Theorem pair_two_same cv so other fuel an a b v1 v2 (c d : Z) s : a <> b -> ((c = a /\ d = b) \/ (c = b /\ d = a)) ->
  set_pair cv so other (Datatypes.S fuel) (two an a b) v1 (two an c d) v2 s = (s, Err OtherException).
Proof.
  intros N H. assert (E : pair_two_two cv so an a b v1 an c d v2 s = (s, Err OtherException)).
  { unfold pair_two_two. rewrite Bool.eqb_reflx. cbn [zmem existsb filter].
    destruct H as [[-> ->]|[-> ->]]; rewrite !Z.eqb_refl; cbn [orb negb filter last_opt]; rewrite ?orb_true_r; cbn [orb negb filter last_opt]; reflexivity. }
  unfold set_pair, pair_checked. rewrite (bind_err _ _ _ s OtherException); [reflexivity|]. rewrite inner_two. exact E.
Qed.

(* s_12 and s_13 at four legs: each call makes another one *)
Theorem pair_S_S_endless cv so other (v1 v2 : K) : set_like so -> forall fuel s, length s = 4%nat ->
  set_pair cv so other fuel (TInv (IS [1; 2]%Z)) v1 (TInv (IS [1; 3]%Z)) v2 s = (s, Err RecursionError).
Proof.
  intros SO fuel s L.
  assert (G : forall n, set_pair_inner cv so other n (TInv (IS [1; 2]%Z)) v1 (TInv (IS [1; 3]%Z)) v2 s = (s, Err RecursionError) /\
                        set_pair_inner cv so other n (TInv (IS [1; 2]%Z)) v1 (TInv (IS [2; 4]%Z)) v2 s = (s, Err RecursionError)).
  { induction n as [|n [IH1 IH2]]; [split; reflexivity|].
    assert (C : forall l : list Z, l <> [] -> complementary so (length s) l = Ok (free_legs 4 l)) by (intros l Hl; rewrite L; apply complementary_free; assumption).
    split; cbn [set_pair_inner kind_of]; unfold pair_S_S; rewrite bind_get; cbn [filter zmem existsb Z.eqb Pos.eqb orb negb app length Nat.ltb Nat.leb].
    - rewrite (bind_lift _ _ _ _ (C [1; 2; 3]%Z ltac:(discriminate))). change (free_legs 4 [1; 2; 3]%Z) with [4]%Z.
      cbn iota. rewrite (bind_lift _ _ _ _ (C [1; 3]%Z ltac:(discriminate))). change (free_legs 4 [1; 3]%Z) with [2; 4]%Z. exact IH2.
    - rewrite (bind_lift _ _ _ _ (C [2; 1; 4]%Z ltac:(discriminate))). change (free_legs 4 [2; 1; 4]%Z) with [3]%Z.
      cbn iota. rewrite (bind_lift _ _ _ _ (C [2; 4]%Z ltac:(discriminate))). change (free_legs 4 [2; 4]%Z) with [1; 3]%Z. exact IH1. }
  unfold set_pair, pair_checked. apply bind_err. apply G.
Qed.
End Pair.
