(* Proofs about points with random momenta over the complex numbers. *)
From Coq Require Import List ZArith Bool Lia Ring Field Permutation.
From Verif Require Import Base Fld Particle ParticleSpec ParticleThm Index IndexThm Phase PhaseSpec PhaseThm MpcRandom MpcRandomSpec MpcRandomThm MpcPoint.
Import ListNotations.

Lemma f2_len {A B} (P : A -> B -> Prop) l m : Forall2 P l m -> length l = length m.
Proof. induction 1; cbn; congruence. Qed.
Lemma rmapM_image {A B} (f : A -> result B) l r : rmapM f l = Ok r -> (forall x y, In x l -> f x = Ok y -> In y r) /\ (forall y, In y r -> exists x, In x l /\ f x = Ok y).
Proof.
  revert r. induction l as [|a l IH]; cbn; intros r H; [injection H as <-; split; [intros x y []|intros y []]|].
  destruct (f a) as [b|] eqn:E; [|discriminate]. destruct (rmapM f l) as [r'|]; [|discriminate]. injection H as <-. destruct (IH r' eq_refl) as [I1 I2]. split.
  - intros x y [<- | Hx] F; [left; congruence|right; eauto].
  - intros y [<- | Hy]; [exists a; auto|]. destruct (I2 y Hy) as (x & Hx & F). exists x. auto.
Qed.
Lemma others_in {T} (s : list T) A B os : others s A B = Ok os -> forall k p, k <> A -> k <> B -> getitem s k = Ok p -> In p os.
Proof.
  intros HO k p NA NB G. apply (proj1 (rmapM_image _ _ _ HO) k p); [|exact G]. apply filter_In. split; [|lia].
  apply getitem_inv in G as [R _]. apply upto_In. unfold zlen in R. lia.
Qed.
Lemma others_from {T} (s : list T) A B os : others s A B = Ok os -> forall p, In p os -> exists k, k <> A /\ k <> B /\ getitem s k = Ok p.
Proof.
  intros HO p Hp. destruct (proj2 (rmapM_image _ _ _ HO) p Hp) as (k & Hk & G). apply filter_In in Hk as [_ Hk]. exists k. split; [lia|]. split; [lia|exact G].
Qed.

Section Thm.
Context {K : Fld} (X : Cx K).
Add Field Kfmpt : (fth K).
Open Scope fld_scope.
Notation i := (ci X). Notation real := (isreal X). Notation pos x := (positive X x). Notation nneg := (nneg X).
Notation psK := (ps K).

(* ---- the forward cone ---- *)
Definition cone (v : v4 K) : Prop :=
  real (c1 v) /\ real (c2 v) /\ real (c3 v) /\ nneg (c0 v) /\ nneg (c0 v * c0 v - (c1 v * c1 v + c2 v * c2 v + c3 v * c3 v)).
Lemma nneg_mul a b : nneg a -> nneg b -> nneg (a * b).
Proof. intros [-> | A] [-> | B]; [left; ring|left; ring|left; ring|right; apply mul_pos; auto]. Qed.
Lemma neg_or a : real a -> nneg a \/ pos (- a).
Proof. intros R. destruct (pos_some _ X a R) as [E | [P | P]]; [left; left; exact E|left; right; exact P|right; exact P]. Qed.
Lemma nneg_pos a : nneg a -> pos (- a) -> False.
Proof. intros [-> | P] Q; [apply (pos_nz X (- (0)) Q); ring|apply (pos_anti X a P Q)]. Qed.
(* p >= |d| from p >= 0 and p^2 >= d^2 *)
Lemma root_le p d : nneg p -> real d -> nneg (p * p - d * d) -> nneg (p - d).
Proof.
  intros P D H. assert (R : real p) by apply nneg_r, P. destruct (neg_or (p - d)) as [N | N]; [apply sub_real; auto|exact N|]. exfalso.
  assert (Q : pos (p + d)).
  { replace (p + d) with ((p + p) + - (p - d)) by ring. destruct P as [-> | P]; [replace (0 + 0 + - (0 - d)) with (- (0 - d)) by ring; exact N|apply add_pos; [apply add_pos; exact P|exact N]]. }
  apply (nneg_pos _ H). replace (- (p * p - d * d)) with (- (p - d) * (p + d)) by ring. apply mul_pos; auto.
Qed.
Ltac reals := repeat (first [assumption|apply add_real|apply sub_real|apply mul_real|apply opp_real|apply nneg_r; assumption]).
Lemma cone_add v w : cone v -> cone w -> cone (v4add v w).
Proof.
  destruct v as [a0 a1 a2 a3], w as [b0 b1 b2 b3]. unfold cone. cbn. intros (A1 & A2 & A3 & A0 & A) (B1 & B2 & B3 & B0 & B).
  split; [reals|]. split; [reals|]. split; [reals|]. split; [apply nneg_add; auto|].
  assert (S : nneg (a1 * a1 + a2 * a2 + a3 * a3)) by (repeat apply nneg_add; apply square_nneg; auto).
  assert (T : nneg (b0 * b0)) by (apply square_nneg; apply nneg_r, B0).
  assert (P : nneg (a0 * b0 - (a1 * b1 + a2 * b2 + a3 * b3))).
  { apply root_le; [apply nneg_mul; auto|reals|].
    replace (a0 * b0 * (a0 * b0) - (a1 * b1 + a2 * b2 + a3 * b3) * (a1 * b1 + a2 * b2 + a3 * b3)) with
      ((a0 * a0 - (a1 * a1 + a2 * a2 + a3 * a3)) * (b0 * b0) + (a1 * a1 + a2 * a2 + a3 * a3) * (b0 * b0 - (b1 * b1 + b2 * b2 + b3 * b3))
       + ((a1 * b2 - a2 * b1) * (a1 * b2 - a2 * b1) + (a1 * b3 - a3 * b1) * (a1 * b3 - a3 * b1) + (a2 * b3 - a3 * b2) * (a2 * b3 - a3 * b2))) by ring.
    apply nneg_add; [apply nneg_add; apply nneg_mul; auto|]. repeat apply nneg_add; apply square_nneg; reals. }
  replace ((a0 + b0) * (a0 + b0) - ((a1 + b1) * (a1 + b1) + (a2 + b2) * (a2 + b2) + (a3 + b3) * (a3 + b3))) with
    ((a0 * a0 - (a1 * a1 + a2 * a2 + a3 * a3)) + (b0 * b0 - (b1 * b1 + b2 * b2 + b3 * b3))
     + ((a0 * b0 - (a1 * b1 + a2 * b2 + a3 * b3)) + (a0 * b0 - (a1 * b1 + a2 * b2 + a3 * b3)))) by ring.
  repeat apply nneg_add; assumption.
Qed.
Lemma cone_zero : cone v4zero.
Proof. unfold cone. cbn. repeat split; try apply zero_real; left; ring. Qed.
Lemma cone_sum vs : Forall cone vs -> cone (v4sum vs).
Proof. induction 1; cbn; [apply cone_zero|apply cone_add; auto]. Qed.
Lemma outgoing_cone v : outgoing X v -> cone v.
Proof. intros [(R0 & R1 & R2 & R3 & E) P]. unfold cone. repeat split; auto; [right; exact P|left; rewrite E; ring]. Qed.
Lemma cone_x v : cone v -> nneg (c0 v - c1 v).
Proof.
  intros (R1 & R2 & R3 & N0 & N). apply root_le; auto.
  replace (c0 v * c0 v - c1 v * c1 v) with ((c0 v * c0 v - (c1 v * c1 v + c2 v * c2 v + c3 v * c3 v)) + (c2 v * c2 v + c3 v * c3 v)) by ring.
  apply nneg_add; [exact N|apply nneg_add; apply square_nneg; auto].
Qed.
(* the energy is the x component for the sum exactly if each momentum is along the x axis *)
Lemma sum_x vs : Forall (outgoing X) vs -> (c0 (v4sum vs) = c1 (v4sum vs) <-> Forall (fun v => v = V4 (c0 v) (c0 v) 0 0) vs).
Proof.
  induction 1 as [|v vs O F IH]; [split; [constructor|reflexivity]|]. cbn [v4sum fold_right]. fold (v4sum vs).
  pose proof (cone_x _ (outgoing_cone v O)) as N1. pose proof (cone_x _ (cone_sum vs (Forall_impl _ outgoing_cone F))) as N2.
  destruct O as [(R0 & R1 & R2 & R3 & E) P]. split.
  - cbn [c0 c1 v4add]. intros H. destruct (nneg_sum X _ _ N1 N2) as [E1 E2].
    { replace (c0 v - c1 v + (c0 (v4sum vs) - c1 (v4sum vs))) with ((c0 v + c0 (v4sum vs)) - (c1 v + c1 (v4sum vs))) by ring. rewrite H. ring. }
    constructor.
    + assert (X1 : c1 v = c0 v) by (replace (c1 v) with (c0 v - (c0 v - c1 v)) by ring; rewrite E1; ring).
      destruct (nneg_sum X (c2 v * c2 v) (c3 v * c3 v) (square_nneg X _ R2) (square_nneg X _ R3)) as [Z2 Z3].
      { replace (c2 v * c2 v + c3 v * c3 v) with ((c1 v * c1 v + c2 v * c2 v + c3 v * c3 v) - c1 v * c1 v) by ring. rewrite <- E, X1. ring. }
      apply square_zero in Z2, Z3. destruct v; cbn in *. congruence.
    + apply IH. replace (c0 (v4sum vs)) with ((c0 (v4sum vs) - c1 (v4sum vs)) + c1 (v4sum vs)) by ring. rewrite E2. ring.
  - intros H. inversion H as [|? ? Ev Fv]; subst. apply IH in Fv. cbn [c0 c1 v4add]. rewrite Fv. rewrite Ev. reflexivity.
Qed.
Lemma sum_pos vs : vs <> [] -> Forall (outgoing X) vs -> pos (c0 (v4sum vs)).
Proof.
  intros N F. destruct F as [|v vs [_ P] F]; [congruence|]. cbn. fold (v4sum vs).
  destruct (cone_sum vs (Forall_impl _ outgoing_cone F)) as (_ & _ & _ & [E | Q] & _); [rewrite E; replace (c0 v + 0) with (c0 v) by ring; exact P|apply add_pos; auto].
Qed.

(* ---- the legs ---- *)
Lemma leg_cases cv rm ts r : mpc_leg X cv rm ts = Some r ->
  exists x y z, mpc_loop X rm ts = Some (x, y, z) /\
    (fsqrt (x * x + y * y + z * z) = None /\ r = Err ValueError \/ exists e, fsqrt (x * x + y * y + z * z) = Some e /\ r = new_four_mom cv (V4 e x y z)).
Proof.
  unfold mpc_leg, randomise_mpc. destruct (mpc_loop X rm ts) as [[[x y] z]|]; [|discriminate]. exists x, y, z. split; [reflexivity|].
  unfold new_four_mom. destruct (fsqrt _) as [e|]; [|left; split; congruence]. right. exists e. split; [reflexivity|].
  destruct (assign_four_mom cv (V4 e x y z) blank) as [q [u|er]]; congruence.
Qed.
Lemma fm_of_assign cv (v : v4 K) : fm (fst (assign_four_mom cv v blank)) = Some v /\ (cv = Symmetric -> snd (assign_four_mom cv v blank) = Ok tt).
Proof.
  rewrite (assign_four_mom_i cv v blank i (ci_imag _ X)). rewrite (spinors_from_fm_r2 cv _ v i (ci_imag _ X)) by reflexivity.
  match goal with |- context [spinors_from_r2 cv ?x] => set (y := x) in * end.
  pose proof (spinors_from_r2_result cv y) as R.
  assert (O : only_spinors y (fst (spinors_from_r2 cv y))) by (apply spinors_from_r2_only; reflexivity).
  destruct O as (O1 & O2 & O3 & O4 & O5 & _). split; [rewrite O3; reflexivity|]. intros ->. exact R.
Qed.
Definition leg_is (p : particle K) (v : v4 K) : Prop := consistent p /\ fm p = Some v /\ r2 p = slash_up i v /\ lsq p = 0.
Lemma new_fm cv (v : v4 K) p : mink v v = 0 -> new_four_mom cv v = Ok p -> leg_is p v.
Proof.
  intros M E. assert (C : consistent p) by (apply constructed_consistent, (con_fm cv v), E).
  unfold new_four_mom in E. destruct (assign_four_mom cv v blank) as [q r] eqn:A. destruct r as [u|]; [|discriminate]. injection E as ->.
  assert (G : fm p = Some v).
  { pose proof (f_equal fst A) as B. cbn in B. rewrite <- B. apply fm_of_assign. }
  pose proof (cons_fm _ C) as Cf. rewrite G in Cf. destruct Cf as (_ & j & Hj & Er & _). rewrite (ci_imag _ X) in Hj. injection Hj as <-.
  repeat split; auto; try apply C. rewrite (lsq_det _ (cons_r2b _ C)), Er, (mdet_slash i) by apply ci_imag. exact M.
Qed.
Lemma real_leg cv ts p : Forall turn_ok ts -> mpc_leg X cv true ts = Some (Ok p) -> exists v, leg_is p v /\ outgoing X v.
Proof.
  intros F L. apply leg_cases in L as (x & y & z & L & [[_ L'] | (e & S & L')]); [discriminate|]. symmetry in L'.
  destruct (loop_real X ts x y z F L) as (Rx & Ry & Rz & A). destruct (energy_real X x y z e Rx Ry Rz A S) as [Pe _].
  exists (V4 e x y z). split; [apply (new_fm cv); [apply light_like; exact S|exact L']|]. split; [|exact Pe].
  unfold real_light. cbn. split; [apply pos_r, Pe|]. split; [exact Rx|]. split; [exact Ry|]. split; [exact Rz|]. apply (fsqrt_ok _ _ _ S).
Qed.
Lemma legs_are cv rm tss s (P : particle K -> Prop) : (forall ts p, In ts tss -> mpc_leg X cv rm ts = Some (Ok p) -> P p) ->
  mpc_legs X cv rm tss = Some (Ok s) -> length s = length tss /\ Forall P s.
Proof.
  revert s. induction tss as [|ts tss IH]; cbn [mpc_legs]; intros s H E; [injection E as <-; split; [reflexivity|constructor]|].
  destruct (mpc_leg X cv rm ts) as [[p|]|] eqn:L; try discriminate. destruct (mpc_legs X cv rm tss) as [[s'|]|]; try discriminate. injection E as <-.
  destruct (IH s' (fun ts p Hin => H ts p (or_intror Hin)) eq_refl) as [IH1 IH2]. split; [cbn; congruence|]. constructor; [apply (H ts p (or_introl eq_refl) L)|exact IH2].
Qed.
Lemma legs_vs (s : psK) : Forall (fun p => exists v, leg_is p v /\ outgoing X v) s ->
  exists vs, Forall2 leg_is s vs /\ Forall (outgoing X) vs.
Proof.
  induction 1 as [|p s (v & L & O) F (vs & IH1 & IH2)]; [exists []; split; constructor|]. exists (v :: vs). split; constructor; auto.
Qed.
Lemma vs_need (s : psK) vs : Forall2 leg_is s vs -> rmapM (fun p => need_r (fm p)) s = Ok vs /\ map (fun p => r2 p) s = map (slash_up i) vs.
Proof.
  induction 1 as [|p v s vs (C & F & R & L) _ [IH1 IH2]]; [split; reflexivity|]. cbn. rewrite F. cbn [need_r]. rewrite IH1, IH2, R. split; reflexivity.
Qed.
Lemma total_nz (s : psK) vs : s <> [] -> Forall2 leg_is s vs -> Forall (outgoing X) vs -> mom_cons_check s = false.
Proof.
  intros N F O. destruct (mom_cons_check s) eqn:E; [|reflexivity]. exfalso. unfold mom_cons_check in E. apply meqb_ok in E.
  unfold total_mom in E. destruct (vs_need s vs F) as [_ R]. rewrite R, slash_sum in E.
  assert (Nv : vs <> []) by (intros ->; inversion F; congruence).
  pose proof (sum_pos vs Nv O) as P. apply (pos_nz X _ P). apply two_zero.
  pose proof (f_equal (fun m => m00 m + m11 m) E) as G. cbn in G. replace (0 + 0) with (@f0 K) in G by ring. rewrite <- G. ring.
Qed.

(* ---- restoring momentum conservation ---- *)
Lemma fix_run cv (s : psK) A B pA pB os vs : A <> B -> getitem s A = Ok pA -> getitem s B = Ok pB -> consistent pA -> consistent pB ->
  others s A B = Ok os -> rmapM (fun p => need_r (fm p)) os = Ok vs -> vs <> [] -> c0 (v4sum vs) <> c1 (v4sum vs) ->
  let Kv := v4sum vs in let x := - mdot Kv (metric Kv) / (2 * (c0 Kv - c1 Kv)) in
  exists s1 s2 qA qB rA rB, fix_mom_cons_real cv A B 1 s = match rA with Ok _ => (s2, rB) | Err e => (s1, Err e) end /\
    assign_four_mom cv (V4 x x 0 0) pA = (qA, rA) /\ assign_four_mom cv (v4sub (v4opp (V4 x x 0 0)) Kv) pB = (qB, rB) /\
    getitem s2 A = Ok qA /\ getitem s2 B = Ok qB /\ fm qA = Some (V4 x x 0 0) /\ fm qB = Some (v4sub (v4opp (V4 x x 0 0)) Kv).
Proof.
  intros N GA GB CA CB HO Hvs Nv HZ Kv x. set (Kax := c1 Kv) in *. set (d := 2 * (c0 Kv - Kax)) in *.
  assert (Hd : d <> 0).
  { apply mul_nz; [apply f2_nz|]. intros E. apply HZ. change (c0 Kv = Kax). replace (c0 Kv) with ((c0 Kv - Kax) + Kax) by ring. rewrite E. ring. }
  destruct (assign_four_mom_result cv (V4 x x 0 0) pA i (ci_imag _ X) CA) as (qA & rA & EA & CqA & FA & RA & SA & KA & KA').
  destruct (setitem_laws s A qA pA GA) as (s1 & S1 & G1 & L1 & O1 & OO1 & _).
  assert (GB1 : getitem s1 B = Ok pB) by (rewrite O1; auto).
  set (wB := v4sub (v4opp (V4 x x 0 0)) Kv).
  destruct (assign_four_mom_result cv wB pB i (ci_imag _ X) CB) as (qB & rB & EB & CqB & FB & RB & SB & KB & KB').
  destruct (setitem_laws s1 B qB pB GB1) as (s2 & S2 & G2 & L2 & O2 & _ & OO2).
  assert (GA2 : getitem s2 A = Ok qA) by (rewrite O2; auto).
  exists s1, s2, qA, qB, rA, rB. split; [|auto 10].
  assert (Lvs : Nat.eqb (length vs) 0 = false) by (destruct vs; [congruence|reflexivity]).
  unfold fix_mom_cons_real. unfold bind at 1. cbn [get]. unfold bind at 1, lift at 1. rewrite HO.
  unfold bind at 1, lift at 1. rewrite Hvs, Lvs. fold Kv. unfold bind at 1, lift at 1. cbn [v4get]. fold Kax.
  unfold bind at 1, lift at 1, divE. fold d. rewrite (proj2 (feqb_neq d 0) Hd). fold x. cbn [Z.eqb Pos.eqb orb].
  unfold bind at 1. unfold on at 1. rewrite GA, EA, S1. destruct rA as [u|e]; [|reflexivity].
  unfold bind at 1, at_ at 1. rewrite G1. unfold bind at 1, needo at 1. rewrite FA. cbn [ret].
  unfold on. rewrite GB1. fold wB. rewrite EB, S2. reflexivity.
Qed.
Lemma fix_is cv s A B rm : (1 <= A)%Z -> (1 <= B)%Z -> fix_mom_cons cv (Some (A, B)) 0 0 rm 1 s = (if rm then fix_mom_cons_real cv A B 1 s else fix_mom_cons_complex (K:=K) A B 1 s).
Proof.
  intros HA HB. unfold fix_mom_cons. cbn [Z.eqb andb]. replace (A =? 0)%Z with false by lia. replace (B =? 0)%Z with false by lia. cbn. destruct rm; reflexivity.
Qed.
(* the momenta of A and B *)
Lemma fixed_signs vs : vs <> [] -> Forall (outgoing X) vs -> c0 (v4sum vs) <> c1 (v4sum vs) ->
  let Kv := v4sum vs in let x := - mdot Kv (metric Kv) / (2 * (c0 Kv - c1 Kv)) in
  (x = 0 \/ pos (- x)) /\ real_light X (V4 x x 0 0) /\ incoming X (v4sub (v4opp (V4 x x 0 0)) Kv).
Proof.
  intros Nv F HZ Kv x. pose proof (cone_sum vs (Forall_impl _ outgoing_cone F)) as C. pose proof (cone_x _ C) as Nx. fold Kv in C, Nx, HZ.
  pose proof (sum_pos vs Nv F) as P0. fold Kv in P0. destruct C as (R1 & R2 & R3 & N0 & N). pose proof (pos_r X _ P0) as R0.
  assert (Px : pos (c0 Kv - c1 Kv)).
  { destruct Nx as [E | P]; [|exact P]. exfalso. apply HZ. replace (c0 Kv) with ((c0 Kv - c1 Kv) + c1 Kv) by ring. rewrite E. ring. }
  set (d := c0 Kv - c1 Kv) in *. assert (Pd : pos (2 * d)) by (replace (2 * d) with (d + d) by ring; apply add_pos; exact Px).
  pose proof (pos_nz X _ Pd) as Nd. pose proof (inv_pos X _ Pd) as Pi.
  assert (Em : mdot Kv (metric Kv) = c0 Kv * c0 Kv - (c1 Kv * c1 Kv + c2 Kv * c2 Kv + c3 Kv * c3 Kv)) by (unfold mdot, metric; cbn; ring).
  assert (Ex : x = - (mdot Kv (metric Kv) * finv (2 * d))) by (unfold x; fold d; field; split; [apply (pos_nz X _ Px)|apply f2_nz]).
  rewrite <- Em in N. pose proof (nneg_mul _ _ N (or_intror Pi)) as Nm.
  assert (Rx : real x) by (rewrite Ex; apply opp_real, nneg_r, Nm).
  split; [destruct Nm as [E | P]; [left; rewrite Ex, E; ring|right; rewrite Ex; replace (- - (mdot Kv (metric Kv) * finv (2 * d))) with (mdot Kv (metric Kv) * finv (2 * d)) by ring; exact P]|].
  split; [unfold real_light; cbn; repeat split; auto; try apply zero_real; ring|].
  assert (Exd : x * (2 * d) = - mdot Kv (metric Kv)) by (rewrite Ex; field; split; [apply (pos_nz X _ Px)|apply f2_nz]).
  split.
  - unfold real_light, v4sub, v4opp. cbn. split; [reals|]. split; [reals|]. split; [apply sub_real; [apply opp_real, zero_real|exact R2]|]. split; [apply sub_real; [apply opp_real, zero_real|exact R3]|].
    rewrite Em in Exd. unfold d in Exd.
    match type of Exd with ?l = ?r => match goal with |- ?g = ?h => replace g with (h + (l - r)) by ring end end. rewrite Exd. ring.
  - unfold v4sub, v4opp. cbn.
    replace (- (- x - c0 Kv)) with ((d * d + (c2 Kv * c2 Kv + c3 Kv * c3 Kv)) * finv (2 * d)).
    + apply mul_pos; [|exact Pi]. pose proof (mul_pos X _ _ Px Px) as Q. destruct (nneg_add X _ _ (square_nneg X _ R2) (square_nneg X _ R3)) as [E | P]; [rewrite E; replace (d * d + 0) with (d * d) by ring; exact Q|apply add_pos; auto].
    + rewrite Ex, Em. unfold d. field. split; [apply (pos_nz X _ Px)|apply f2_nz].
Qed.

(* ---- the constructor ---- *)
Lemma setup cv tss s0 : Forall (Forall turn_ok) tss -> mpc_legs X cv true tss = Some (Ok s0) ->
  length s0 = length tss /\ Forall (fun p => exists v, leg_is p v /\ outgoing X v) s0 /\ Forall (fun p => consistent p) s0 /\ (tss <> [] -> mom_cons_check s0 = false).
Proof.
  intros F L. destruct (legs_are cv true tss s0 (fun p => exists v, leg_is p v /\ outgoing X v)) as [L0 H]; [|exact L|].
  { intros ts p Hin. apply real_leg. rewrite Forall_forall in F. apply F, Hin. }
  split; [exact L0|]. split; [exact H|]. split; [apply (Forall_impl _ (fun p (G : exists v, leg_is p v /\ outgoing X v) => let (v, Q) := G in proj1 (proj1 Q)) H)|].
  intros N. destruct (legs_vs s0 H) as (vs & F2 & O). apply (total_nz s0 vs); auto. intros ->. destruct tss; [congruence|discriminate].
Qed.
Lemma sample_legs (s0 : psK) sample : (2 <= length s0)%nat -> sample_ok (length s0) sample ->
  exists A B pA pB, sample = Some (A, B) /\ A <> B /\ (1 <= A)%Z /\ (1 <= B)%Z /\ getitem s0 A = Ok pA /\ getitem s0 B = Ok pB.
Proof.
  intros L H. destruct sample as [[A B]|]; cbn in H; [|lia]. destruct H as [[HA HB] N].
  assert (G : forall k, (1 <= k <= Z.of_nat (length s0))%Z -> exists p, getitem s0 k = Ok p).
  { intros k Hk. destruct (split_at s0 k Hk) as (l1 & y & l2 & -> & Lk). destruct (index_in l1 y l2 k y Lk) as (G & _). eauto. }
  destruct (G A HA) as [pA GA]. destruct (G B HB) as [pB GB]. exists A, B, pA, pB. repeat split; auto; lia.
Qed.
Lemma others_vs (s0 : psK) A B pA pB : Forall (fun p => exists v, leg_is p v /\ outgoing X v) s0 -> A <> B -> getitem s0 A = Ok pA -> getitem s0 B = Ok pB ->
  exists os vs, others s0 A B = Ok os /\ rmapM (fun p => need_r (fm p)) os = Ok vs /\ Forall2 leg_is os vs /\ Forall (outgoing X) vs /\ length s0 = S (S (length vs)).
Proof.
  intros H N GA GB. destruct (others_ok s0 A B) as [os HO]. pose proof (others_perm s0 A B pA pB os N GA GB HO) as P.
  assert (Ho : Forall (fun p => exists v, leg_is p v /\ outgoing X v) os).
  { rewrite Forall_forall in *. intros p Hp. apply H, (Permutation_in p (Permutation_sym P)). right; right; exact Hp. }
  destruct (legs_vs os Ho) as (vs & F2 & O). exists os, vs. split; [exact HO|]. split; [apply vs_need, F2|]. split; [exact F2|]. split; [exact O|].
  apply Permutation_length in P. rewrite P. cbn. rewrite (f2_len _ _ _ F2). reflexivity.
Qed.
Lemma new_shape cv tss ref sample : Forall (Forall turn_ok) tss -> tss <> [] -> forall x, new_mpc X cv true tss ref sample true = Some x ->
  (exists e, snd x = Err e /\ (mpc_legs X cv true tss = Some (Err e) \/ mpc_leg X cv true ref = Some (Err e))) \/
  exists s0 r, mpc_legs X cv true tss = Some (Ok s0) /\ mpc_leg X cv true ref = Some (Ok r) /\ x = fix_mom_cons cv sample 0 0 true 1 s0.
Proof.
  intros F N x. unfold new_mpc. destruct (mpc_legs X cv true tss) as [[s0|e]|] eqn:L; [| |discriminate].
  - destruct (mpc_leg X cv true ref) as [[r|e]|] eqn:R; [| |discriminate].
    + intros E. right. exists s0, r. split; [reflexivity|]. split; [reflexivity|]. destruct (setup cv tss s0 F L) as (_ & _ & _ & M). rewrite (M N) in E. cbn [andb negb] in E. injection E as <-. reflexivity.
    + intros E. left. exists e. injection E as <-. auto.
  - intros E. left. exists e. injection E as <-. auto.
Qed.

Lemma new_real cv tss ref sample s : Forall (Forall turn_ok) tss -> sample_ok (length tss) sample -> (3 <= length tss)%nat ->
  new_mpc X cv true tss ref sample true = Some (s, Ok tt) ->
  exists A B, sample = Some (A, B) /\ length s = length tss /\ total_mom s = mzero /\
    forall k p, getitem s k = Ok p -> consistent p /\ lsq p = 0 /\ exists v, fm p = Some v /\ real_light X v /\
      (k <> A -> k <> B -> outgoing X v) /\ (k = A -> v = V4 (c0 v) (c0 v) 0 0 /\ (c0 v = 0 \/ incoming X v)) /\ (k = B -> incoming X v).
Proof.
  intros F HS L E. assert (N0 : tss <> []) by (intros ->; cbn in L; lia).
  destruct (new_shape cv tss ref sample F N0 _ E) as [(e & E' & _) | (s0 & r & EL & _ & E')]; [discriminate|].
  destruct (setup cv tss s0 F EL) as (L0 & H & C & _). rewrite <- L0 in HS, L.
  destruct (sample_legs s0 sample ltac:(lia) HS) as (A & B & pA & pB & -> & N & HA & HB & GA & GB).
  rewrite fix_is in E' by assumption. destruct (others_vs s0 A B pA pB H N GA GB) as (os & vs & HO & Hvs & F2 & O & Lv).
  exists A, B. split; [reflexivity|]. assert (Nv : vs <> []) by (intros ->; cbn in Lv; lia).
  pose proof (fix_real_ok cv s0 A B 1 pA pB i vs (ci_imag _ X) N GA GB C L (or_introl eq_refl) (ex_intro _ os (conj HO Hvs)) (v4sum vs) (c1 (v4sum vs)) eq_refl eq_refl) as [Z1 Z2].
  destruct (feqb (c0 (v4sum vs)) (c1 (v4sum vs))) eqn:Q; [apply feqb_ok in Q; rewrite (Z1 Q) in E'; congruence|].
  assert (HZ : c0 (v4sum vs) <> c1 (v4sum vs)) by (intros G; apply feqb_ok in G; congruence).
  destruct (Z2 HZ) as (s' & res & Er & _ & Z3). rewrite <- E' in Er. injection Er as <- <-. clear Z1 Z2.
  destruct (Z3 eq_refl) as (qA & qB & vA & vB & T & [Ls U] & GA' & GB' & CA' & CB' & lA & lB & _ & _ & _). clear Z3.
  assert (CA : consistent pA) by (apply (proj1 (Forall_getitem _ s0) C A pA GA)). assert (CB : consistent pB) by (apply (proj1 (Forall_getitem _ s0) C B pB GB)).
  destruct (fix_run cv s0 A B pA pB os vs N GA GB CA CB HO Hvs Nv HZ) as (s1 & s2 & qA2 & qB2 & rA & rB & Run & EA & EB & G1 & G2 & F1 & F3).
  destruct (fixed_signs vs Nv O HZ) as (Sx & LA & IB). rewrite <- E' in Run. destruct rA as [u|]; [|congruence]. injection Run as -> _.
  rewrite GA' in G1. injection G1 as <-. rewrite GB' in G2. injection G2 as <-.
  split; [congruence|]. split; [exact T|]. intros k p G.
  destruct (Z.eq_dec k A) as [->|NA]; [|destruct (Z.eq_dec k B) as [->|NB]].
  - rewrite GA' in G. injection G as <-. split; [exact CA'|]. split; [exact lA|]. eexists. split; [exact F1|]. split; [exact LA|]. cbn [c0].
    split; [intros E0; congruence|]. split; [intros _; split; [reflexivity|]|intros E0; congruence].
    destruct Sx as [E0 | P]; [left; exact E0|right]. split; [exact LA|exact P].
  - rewrite GB' in G. injection G as <-. split; [exact CB'|]. split; [exact lB|]. eexists. split; [exact F3|]. split; [apply IB|].
    split; [intros _ E0; congruence|]. split; [intros E0; congruence|]. intros _. exact IB.
  - rewrite (U k NA NB) in G. destruct (proj1 (Forall_getitem _ s0) H k p G) as (v & (C1 & C2 & C3 & C4) & Ov). split; [exact C1|]. split; [exact C4|]. exists v. split; [exact C2|]. split; [apply Ov|].
    split; [intros _ _; exact Ov|]. split; intros E0; congruence.
Qed.
(* what can go wrong with the symmetric choice of spinors *)
Lemma new_real_error tss ref A B s0 r : Forall (Forall turn_ok) tss -> sample_ok (length tss) (Some (A, B)) -> (3 <= length tss)%nat ->
  mpc_legs X Symmetric true tss = Some (Ok s0) -> mpc_leg X Symmetric true ref = Some (Ok r) ->
  exists s res, new_mpc X Symmetric true tss ref (Some (A, B)) true = Some (s, res) /\ (res = Ok tt \/ res = Err ZeroDivisionError) /\
    (res = Err ZeroDivisionError <-> forall k p v, k <> A -> k <> B -> getitem s0 k = Ok p -> fm p = Some v -> v = V4 (c0 v) (c0 v) 0 0).
Proof.
  intros F HS L EL ER. assert (N0 : tss <> []) by (intros ->; cbn in L; lia).
  destruct (setup Symmetric tss s0 F EL) as (L0 & H & C & M). unfold new_mpc. rewrite EL, ER, (M N0). cbn [andb negb]. rewrite <- L0 in HS, L.
  destruct (sample_legs s0 (Some (A, B)) ltac:(lia) HS) as (A' & B' & pA & pB & EAB & N & HA & HB & GA & GB). injection EAB as <- <-.
  rewrite fix_is by assumption. destruct (others_vs s0 A B pA pB H N GA GB) as (os & vs & HO & Hvs & F2 & O & Lv).
  pose proof (fix_real_ok Symmetric s0 A B 1 pA pB i vs (ci_imag _ X) N GA GB C L (or_introl eq_refl) (ex_intro _ os (conj HO Hvs)) (v4sum vs) (c1 (v4sum vs)) eq_refl eq_refl) as [Z1 Z2].
  assert (Iff : c0 (v4sum vs) = c1 (v4sum vs) <-> forall k p v, k <> A -> k <> B -> getitem s0 k = Ok p -> fm p = Some v -> v = V4 (c0 v) (c0 v) 0 0).
  { rewrite (sum_x vs O). split.
    - intros Fv k p v NA NB G Fm. assert (Hp : In p os) by (apply (others_in s0 A B os HO k p); auto).
      clear - Fv F2 Hp Fm. induction F2 as [|q w os vs Hq _ IH]; [destruct Hp|]. inversion Fv; subst. destruct Hp as [-> | Hp]; [|auto].
      destruct Hq as (_ & Fq & _). rewrite Fm in Fq. injection Fq as ->. assumption.
    - intros Hk. assert (G : forall p, In p os -> exists k, k <> A /\ k <> B /\ getitem s0 k = Ok p) by (intros p; apply (others_from s0 A B os HO)).
      clear - F2 Hk G. induction F2 as [|q w os vs Hq _ IH]; constructor; [|apply IH; intros p Hp; apply G; right; exact Hp].
      destruct (G q (or_introl eq_refl)) as (k & NA & NB & Gk). apply (Hk k q w NA NB Gk). apply Hq. }
  destruct (feqb (c0 (v4sum vs)) (c1 (v4sum vs))) eqn:Q.
  - apply feqb_ok in Q. rewrite (Z1 Q). exists s0, (Err ZeroDivisionError). split; [reflexivity|]. split; [right; reflexivity|]. rewrite <- Iff. tauto.
  - assert (HZ : c0 (v4sum vs) <> c1 (v4sum vs)) by (intros G; apply feqb_ok in G; congruence).
    destruct (Z2 HZ) as (s' & res & -> & R & _). rewrite (R eq_refl). exists s', (Ok tt). split; [reflexivity|]. split; [left; reflexivity|]. rewrite <- Iff. split; [discriminate|tauto].
Qed.
Lemma new_real_two cv tss ref A B x : Forall (Forall turn_ok) tss -> sample_ok (length tss) (Some (A, B)) -> length tss = 2%nat ->
  new_mpc X cv true tss ref (Some (A, B)) true = Some x -> exists e, snd x = Err e /\ (mpc_legs X cv true tss <> Some (Err e) -> mpc_leg X cv true ref <> Some (Err e) -> e = TypeError).
Proof.
  intros F HS L E. assert (N0 : tss <> []) by (intros ->; cbn in L; lia).
  destruct (new_shape cv tss ref _ F N0 _ E) as [(e & E' & [D | D]) | (s0 & r & EL & _ & ->)]; [exists e; split; [exact E'|tauto]|exists e; split; [exact E'|tauto]|].
  destruct (setup cv tss s0 F EL) as (L0 & H & C & _). rewrite <- L0 in HS, L.
  destruct (sample_legs s0 _ ltac:(lia) HS) as (A' & B' & pA & pB & EAB & N & HA & HB & GA & GB). injection EAB as <- <-.
  rewrite fix_is by assumption. destruct (others_vs s0 A B pA pB H N GA GB) as (os & vs & HO & Hvs & F2 & O & Lv).
  assert (vs = []) by (destruct vs; [reflexivity|cbn in Lv; lia]). subst vs.
  exists TypeError. split; [|reflexivity]. unfold fix_mom_cons_real. unfold bind at 1. cbn [get]. unfold bind at 1, lift at 1. rewrite HO. unfold bind at 1, lift at 1. rewrite Hvs. reflexivity.
Qed.
Lemma new_real_three tss ref A B s : Forall (Forall turn_ok) tss -> sample_ok (length tss) (Some (A, B)) -> length tss = 3%nat ->
  new_mpc X Symmetric true tss ref (Some (A, B)) true = Some (s, Ok tt) ->
  exists p, getitem s A = Ok p /\ r2 p = mzero /\ fm p = Some (V4 0 0 0 0) /\ r_d p = None /\ r_u p = None /\ l_d p = None /\ l_u p = None.
Proof.
  intros F HS L E. assert (N0 : tss <> []) by (intros ->; cbn in L; lia).
  destruct (new_shape Symmetric tss ref _ F N0 _ E) as [(e & E' & _) | (s0 & r & EL & _ & E')]; [discriminate|].
  destruct (setup Symmetric tss s0 F EL) as (L0 & H & C & _). rewrite <- L0 in HS, L.
  destruct (sample_legs s0 _ ltac:(lia) HS) as (A' & B' & pA & pB & EAB & N & HA & HB & GA & GB). injection EAB as <- <-.
  rewrite fix_is in E' by assumption. destruct (others_vs s0 A B pA pB H N GA GB) as (os & vs & HO & Hvs & F2 & O & Lv).
  assert (Nv : vs <> []) by (intros ->; cbn in Lv; lia).
  pose proof (fix_real_ok Symmetric s0 A B 1 pA pB i vs (ci_imag _ X) N GA GB C ltac:(lia) (or_introl eq_refl) (ex_intro _ os (conj HO Hvs)) (v4sum vs) (c1 (v4sum vs)) eq_refl eq_refl) as [Z1 _].
  destruct (feqb (c0 (v4sum vs)) (c1 (v4sum vs))) eqn:Q; [apply feqb_ok in Q; rewrite (Z1 Q) in E'; congruence|].
  assert (HZ : c0 (v4sum vs) <> c1 (v4sum vs)) by (intros G; apply feqb_ok in G; congruence).
  assert (CA : consistent pA) by (apply (proj1 (Forall_getitem _ s0) C A pA GA)). assert (CB : consistent pB) by (apply (proj1 (Forall_getitem _ s0) C B pB GB)).
  destruct (fix_run Symmetric s0 A B pA pB os vs N GA GB CA CB HO Hvs Nv HZ) as (s1 & s2 & qA & qB & rA & rB & Run & EA & EB & G1 & G2 & F1 & F3).
  rewrite <- E' in Run. destruct rA as [u|]; [|congruence]. injection Run as -> _. exists qA. split; [exact G1|].
  destruct vs as [|v [|? ?]]; [congruence| |cbn in Lv; lia]. inversion O as [|? ? Ov _]; subst. destruct Ov as [(_ & _ & _ & _ & Ev) _].
  assert (Zx : - mdot (v4sum [v]) (metric (v4sum [v])) / (2 * (c0 (v4sum [v]) - c1 (v4sum [v]))) = 0).
  { replace (mdot (v4sum [v]) (metric (v4sum [v]))) with (c0 v * c0 v - (c1 v * c1 v + c2 v * c2 v + c3 v * c3 v)) by (unfold mdot, metric; cbn; ring).
    rewrite Ev. set (d := 2 * _). assert (Hd : d <> 0). { apply mul_nz; [apply f2_nz|]. intros G. apply HZ. replace (c0 (v4sum [v])) with ((c0 (v4sum [v]) - c1 (v4sum [v])) + c1 (v4sum [v])) by ring. rewrite G. ring. } field. exact Hd. }
  rewrite Zx in EA, F1. clear Zx.
  destruct (massless_outcomes Symmetric pA) as (_ & _ & Hm & _). destruct (Hm i (V4 0 0 0 0) (ci_imag _ X)) as [_ H2]; [unfold mink; cbn; ring|].
  destruct H2 as (q & Eq & Q1 & Q2 & Q3 & Q4); [unfold slash_up; cbn; ring|]. rewrite EA in Eq. injection Eq as <- _.
  destruct (assign_four_mom_result Symmetric (V4 0 0 0 0) pA i (ci_imag _ X) CA) as (q' & r' & E1 & _ & _ & R2 & _). rewrite EA in E1. injection E1 as <- _.
  split; [rewrite R2; unfold slash_up, mzero; cbn; apply m2_ext; cbn; ring|]. split; [exact F1|]. auto.
Qed.
(* complex momenta: fine if every leg got its spinors *)
Lemma new_complex tss ref sample s : sample_ok (length tss) sample ->
  (forall ts x y z e, In ts tss -> mpc_loop X false ts = Some (x, y, z) -> fsqrt (x * x + y * y + z * z) = Some e -> e + z <> 0 /\ fsqrt (e + z) <> None) ->
  new_mpc X Symmetric false tss ref sample true = Some (s, Ok tt) -> length s = length tss /\ physical s.
Proof.
  intros HS H E. unfold new_mpc in E. destruct (mpc_legs X Symmetric false tss) as [[s0|e]|] eqn:L; [| |discriminate].
  2:{ injection E as _ E. discriminate. }
  assert (G : length s0 = length tss /\ Forall fresh s0).
  { apply (legs_are Symmetric false tss s0 fresh); [|exact L]. intros ts p Hin Lp. pose proof Lp as Lp0.
    apply leg_cases in Lp as (x & y & z & Lz & [[_ D] | (e & S & Ep)]); [discriminate|]. symmetry in Ep.
    destruct (H ts x y z e Hin Lz S) as [Nz Sq]. destruct (new_fm Symmetric (V4 e x y z) p (light_like x y z e S) Ep) as (C & Fm & R & Z).
    split; [exact C|]. split; [|exact Z]. destruct (spinors_of X Symmetric false ts blank x y z e Lz S) as [Q _]. destruct (Q Nz (fun _ => Sq)) as (q & Eq & Rq & _).
    unfold mpc_leg in Lp0. rewrite Eq in Lp0. injection Lp0 as ->. exact Rq. }
  destruct G as [L0 Fr]. rewrite <- L0 in HS |- *. destruct (mpc_leg X Symmetric false ref) as [[r|e]|]; [| |discriminate].
  2:{ injection E as _ E. discriminate. }
  cbn [andb] in E. destruct (mom_cons_check s0) eqn:M; cbn [negb] in E.
  - injection E as <-. split; [reflexivity|]. split; [apply meqb_ok, M|exact Fr].
  - injection E as E. destruct (fix_fresh Symmetric s0 sample 1%Z HS Fr) as [H1 _]. rewrite E in H1. apply H1. reflexivity.
Qed.
End Thm.
