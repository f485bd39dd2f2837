(* Proofs about random momenta over the complex numbers. *)
From Coq Require Import List ZArith Bool Lia Ring Field.
From Verif Require Import Base Fld Particle ParticleSpec ParticleThm MpcRandom MpcRandomSpec.
Import ListNotations.

Section Thm.
Context {K : Fld} (X : Cx K).
Add Field Kfmpc : (fth K).
Open Scope fld_scope.
Notation i := (ci X). Notation re := (re X). Notation im := (im X).
Notation real := (isreal X). Notation pos x := (positive X x).

Lemma ii : i * i = - (1).
Proof. apply (fimag_ok K), ci_imag. Qed.
Lemma zero_real : real 0.
Proof. pose proof (im_add _ X 1 (- (1)) (im_one _ X) (im_opp _ X _ (im_one _ X))) as H. replace (1 + - (1)) with (@f0 K) in H by ring. exact H. Qed.
Lemma re_real a : real a -> re a = a.
Proof. intros H. pose proof (cx_unique _ X a 0 H zero_real) as [E _]. replace (a + i * 0) with a in E by ring. exact E. Qed.
Lemma add_real a b : real a -> real b -> real (a + b). Proof. apply im_add. Qed.
Lemma mul_real a b : real a -> real b -> real (a * b). Proof. apply im_mul. Qed.
Lemma opp_real a : real a -> real (- a). Proof. apply im_opp. Qed.
Lemma sub_real a b : real a -> real b -> real (a - b).
Proof. intros A B. replace (a - b) with (a + - b) by ring. apply add_real; [exact A|apply opp_real, B]. Qed.
Lemma re_opp x : re (- x) = - re x.
Proof.
  pose proof (cx_unique _ X (- re x) (- im x) (im_opp _ X _ (im_re _ X x)) (im_opp _ X _ (im_im _ X x))) as [E _].
  rewrite <- E. f_equal. rewrite (cx_parts _ X x) at 1. ring.
Qed.
Lemma im_opp' x : im (- x) = - im x.
Proof.
  pose proof (cx_unique _ X (- re x) (- im x) (im_opp _ X _ (im_re _ X x)) (im_opp _ X _ (im_im _ X x))) as [_ E].
  rewrite <- E. f_equal. rewrite (cx_parts _ X x) at 1. ring.
Qed.
Lemma parts_eq a b c d : real a -> real b -> real c -> real d -> a + i * b = c + i * d -> a = c /\ b = d.
Proof.
  intros A B C D E. destruct (cx_unique _ X a b A B) as [E1 E2]. destruct (cx_unique _ X c d C D) as [E3 E4].
  rewrite E in E1, E2. split; congruence.
Qed.
Lemma pos_nz a : pos a -> a <> 0.
Proof. intros P ->. unfold positive in P. rewrite pos_zero in P. discriminate. Qed.
Lemma pos_anti a : pos a -> pos (- a) -> False.
Proof. intros P Q. apply (pos_nz (a + - a)); [apply pos_add; assumption|ring]. Qed.
Lemma pos_r a : pos a -> real a. Proof. apply pos_real. Qed.
Lemma add_pos a b : pos a -> pos b -> pos (a + b). Proof. apply pos_add. Qed.
Lemma mul_pos a b : pos a -> pos b -> pos (a * b). Proof. apply pos_mul. Qed.
(* not negative *)
Definition nneg (a : K) : Prop := a = 0 \/ pos a.
Lemma nneg_r a : nneg a -> real a.
Proof. intros [-> | P]; [apply zero_real|apply pos_r, P]. Qed.
Lemma nneg_add a b : nneg a -> nneg b -> nneg (a + b).
Proof.
  intros [-> | A] [-> | B]; [left; ring|right|right|right; apply add_pos; auto].
  - replace (0 + b) with b by ring. exact B.
  - replace (a + 0) with a by ring. exact A.
Qed.
Lemma nneg_sum a b : nneg a -> nneg b -> a + b = 0 -> a = 0 /\ b = 0.
Proof.
  intros [-> | A] B E; [split; [reflexivity|]; rewrite <- E; ring|].
  exfalso. destruct B as [-> | B]; [apply (pos_nz a A); rewrite <- E; ring|]. apply (pos_nz (a + b)); auto. apply add_pos; auto.
Qed.
Lemma square_nneg a : real a -> nneg (a * a).
Proof.
  intros R. destruct (pos_some _ X a R) as [-> | [P | P]]; [left; ring|right; apply mul_pos; exact P|right].
  replace (a * a) with (- a * - a) by ring. apply mul_pos; exact P.
Qed.
Lemma square_zero (a : K) : a * a = 0 -> a = 0.
Proof. intros E. destruct (feqb a 0) eqn:F; [apply feqb_ok, F|]. exfalso. assert (N : a <> 0) by (intros G; apply feqb_ok in G; congruence). apply N. replace a with (a * a / a) by (field; exact N). rewrite E. field. exact N. Qed.
Lemma two_zero (a : K) : a + a = 0 -> a = 0.
Proof. intros E. replace a with ((a + a) / 2) by (field; apply f2_nz). rewrite E. field. apply f2_nz. Qed.
Lemma mul_zero (a b : K) : a * b = 0 -> a = 0 \/ b = 0.
Proof. intros E. destruct (feqb a 0) eqn:F; [left; apply feqb_ok, F|right]. assert (N : a <> 0) by (intros G; apply feqb_ok in G; congruence). replace b with (a * b / a) by (field; exact N). rewrite E. field. exact N. Qed.
(* the root of a number that is not negative is not negative *)
Lemma root_nneg (x e : K) : nneg x -> fsqrt x = Some e -> nneg e.
Proof.
  intros N S. pose proof (fsqrt_ok _ _ _ S) as E. pose proof (cx_sqrt _ X _ _ S) as P.
  rewrite (cx_parts _ X e) in E. set (a := re e) in *. set (b := im e) in *.
  assert (A : real a) by apply im_re. assert (B : real b) by apply im_im.
  assert (E' : (a * a - b * b) + i * (a * b + a * b) = x + i * 0).
  { rewrite <- E. replace ((a + i * b) * (a + i * b)) with (a * a + (i * i) * (b * b) + i * (a * b + a * b)) by ring. rewrite ii. ring. }
  apply parts_eq in E' as [E1 E2]; [|apply sub_real; apply mul_real; auto|apply add_real; apply mul_real; auto|apply nneg_r, N|apply zero_real].
  apply two_zero, mul_zero in E2.
  assert (Ee : e = a + i * b) by apply cx_parts.
  destruct (feqb b 0) eqn:F.
  - apply feqb_ok in F. rewrite Ee, F. replace (a + i * 0) with a by ring. destruct P as [P | [P _]]; [right; exact P|left; exact P].
  - assert (Nb : b <> 0) by (intros G; apply feqb_ok in G; congruence). destruct E2 as [E2 | E2]; [|congruence].
    exfalso. apply Nb, square_zero. rewrite E2 in E1.
    destruct (nneg_sum x (b * b) N (square_nneg b B)) as [_ H]; [rewrite <- E1; ring|exact H].
Qed.

(* ---- the energy and the z component ---- *)
Lemma energy_real x y z e : real x -> real y -> real z -> accepted X (x, y, z) = true -> fsqrt (x * x + y * y + z * z) = Some e -> pos e /\ pos (e + z).
Proof.
  intros Rx Ry Rz A S.
  assert (Nx : nneg (x * x)) by (apply square_nneg; auto). assert (Ny : nneg (y * y)) by (apply square_nneg; auto). assert (Nz : nneg (z * z)) by (apply square_nneg; auto).
  assert (N : nneg (x * x + y * y)) by (apply nneg_add; auto).
  pose proof (fsqrt_ok _ _ _ S) as E. pose proof (root_nneg _ _ (nneg_add _ _ N Nz) S) as Ne.
  unfold accepted in A. unfold isreal in Rz. rewrite (re_real z Rz), Rz in A. rewrite (proj2 (feqb_ok K 0 0) eq_refl), andb_true_r in A.
  assert (H : x = 0 -> y = 0 -> pos z).
  { intros -> ->. rewrite (proj2 (feqb_ok K 0 0) eq_refl) in A. cbn in A. rewrite negb_involutive in A. exact A. }
  assert (Pe : pos e).
  { destruct Ne as [-> | P]; [|exact P]. exfalso.
    destruct (nneg_sum _ _ N Nz) as [E1 E2]; [rewrite <- E; ring|]. destruct (nneg_sum _ _ Nx Ny E1) as [E3 E4].
    apply square_zero in E2, E3, E4. subst. apply (pos_nz 0); auto. }
  split; [exact Pe|].
  assert (F : (e + z) * (e - z) = x * x + y * y) by (replace ((e + z) * (e - z)) with (e * e - z * z) by ring; rewrite E; ring).
  destruct (pos_some _ X (e + z)) as [E0 | [P | P]]; [apply add_real; [apply pos_r, Pe|exact Rz]| |exact P|].
  - exfalso. rewrite E0 in F. destruct (nneg_sum _ _ Nx Ny) as [E3 E4]; [rewrite <- F; ring|]. apply square_zero in E3, E4.
    pose proof (H E3 E4) as Pz. apply (pos_nz (e + z)); [apply add_pos; auto|exact E0].
  - exfalso. assert (P2 : pos (e - z)).
    { replace (e - z) with ((e + e) + - (e + z)) by ring. apply add_pos; [apply add_pos; exact Pe|exact P]. }
    assert (P3 : pos (- (x * x + y * y))) by (rewrite <- F; replace (- ((e + z) * (e - z))) with (- (e + z) * (e - z)) by ring; apply mul_pos; [exact P|exact P2]).
    destruct N as [N | N]; [rewrite N in P3; apply (pos_nz (- (0))); [exact P3|ring]|]. apply (pos_anti _ N P3).
Qed.
Lemma energy_zero (x y z e : K) : fsqrt (x * x + y * y + z * z) = Some e -> (e + z = 0 <-> x * x + y * y = 0 /\ backward X z).
Proof.
  intros S. pose proof (fsqrt_ok _ _ _ S) as E. pose proof (cx_sqrt _ X _ _ S) as P. split.
  - intros E0. assert (Ez : e = - z) by (replace e with ((e + z) - z) by ring; rewrite E0; ring).
    split; [replace (x * x + y * y) with ((x * x + y * y + z * z) - z * z) by ring; rewrite <- E, Ez; ring|].
    rewrite Ez, re_opp, im_opp' in P. destruct P as [P | [P [Q | Q]]]; [left; exact P| |]; right; (split; [replace (re z) with (- - re z) by ring; rewrite P; ring|]).
    + left. replace (im z) with (- - im z) by ring. rewrite Q. ring.
    + right. exact Q.
  - intros [E0 B]. assert (F : (e + z) * (e - z) = 0) by (replace ((e + z) * (e - z)) with (e * e - z * z) by ring; rewrite E, E0; ring).
    apply mul_zero in F as [F | F]; [exact F|]. assert (Ez : e = z) by (replace e with ((e - z) + z) by ring; rewrite F; ring).
    rewrite Ez in P. assert (Z0 : z = 0).
    { rewrite (cx_parts _ X z). destruct B as [B | [B1 B2]].
      - exfalso. destruct P as [P | [P _]]; [apply (pos_anti _ P B)|rewrite P in B; apply (pos_nz (- (0))); [exact B|ring]].
      - destruct P as [P | [_ P]]; [rewrite B1 in P; exfalso; apply (pos_nz 0); auto|].
        rewrite B1. destruct B2 as [B2 | B2]; [rewrite B2; ring|]. destruct P as [P | P]; [rewrite P; ring|exfalso; apply (pos_anti _ P B2)]. }
    rewrite Ez, Z0. ring.
Qed.
Lemma light_like (x y z e : K) : fsqrt (x * x + y * y + z * z) = Some e -> mink (V4 e x y z) (V4 e x y z) = 0.
Proof. intros S. pose proof (fsqrt_ok _ _ _ S) as E. unfold mink. cbn. rewrite E. ring. Qed.

(* ---- the fractions ---- *)
Notation phi := (mpc_int (K:=K)).
Lemma phi_morph : ring_morph 0 1 fadd fmul fsub fopp (@eq K) 0%Z 1%Z Z.add Z.mul Z.sub Z.opp Zeq_bool phi.
Proof. apply InitialRing.gen_phiZ_morph; [apply Eqsth|apply Eq_ext|apply (F_R (fth K))]. Qed.
Lemma one_pos : pos 1.
Proof.
  destruct (pos_some _ X 1 (im_one _ X)) as [E | [P | P]]; [exfalso; apply (F_1_neq_0 (fth K)); exact E|exact P|].
  replace (@f1 K) with (- @f1 K * - @f1 K) by ring. apply mul_pos; exact P.
Qed.
Lemma phi_succ n : phi (Z.succ n) = phi n + 1.
Proof. unfold Z.succ. rewrite (morph_add phi_morph). reflexivity. Qed.
Lemma phi_nneg n : (0 <= n)%Z -> nneg (phi n).
Proof.
  revert n. apply natlike_ind; [left; apply (morph0 phi_morph)|]. intros n _ H. rewrite phi_succ. apply nneg_add; [exact H|right; apply one_pos].
Qed.
Lemma phi_pos n : (0 < n)%Z -> pos (phi n).
Proof.
  intros H. replace n with (Z.succ (n - 1)) by lia. rewrite phi_succ. destruct (phi_nneg (n - 1)) as [-> | P]; [lia| |apply add_pos; [exact P|apply one_pos]].
  replace (0 + 1) with (@f1 K) by ring. apply one_pos.
Qed.
Lemma phi_real n : real (phi n).
Proof.
  destruct (Z.le_gt_cases 0 n) as [H | H]; [apply nneg_r, phi_nneg, H|].
  replace n with (- (- n))%Z by lia. rewrite (morph_opp phi_morph). apply opp_real, nneg_r, phi_nneg. lia.
Qed.
Lemma inv_pos (a : K) : pos a -> pos (finv a).
Proof.
  intros P. pose proof (pos_nz a P) as N. assert (R : real (finv a)) by apply im_inv, pos_r, P.
  replace (finv a) with (a * (finv a * finv a)) by (field; exact N). apply mul_pos; [exact P|].
  destruct (square_nneg _ R) as [E | Q]; [|exact Q]. exfalso. apply square_zero in E. apply (F_1_neq_0 (fth K)). replace (@f1 K) with (a * finv a) by (field; exact N). rewrite E. ring.
Qed.
Lemma frac_ok d : drawn d -> real (rand_frac d) /\ phi (snd d) * rand_frac d = phi (fst d) /\ nneg (phi 100 - rand_frac d) /\ nneg (phi 100 + rand_frac d).
Proof.
  destruct d as [n d]. unfold drawn, rand_frac. cbn [fst snd]. intros [Hn Hd].
  assert (Pd : pos (phi d)) by (apply phi_pos; lia). pose proof (pos_nz _ Pd) as Nd. pose proof (inv_pos _ Pd) as Pi.
  assert (G : forall m, (0 <= m)%Z -> nneg (phi m / phi d)).
  { intros m Hm. replace (phi m / phi d) with (phi m * finv (phi d)) by (field; exact Nd). destruct (phi_nneg m Hm) as [-> | P]; [left; ring|right; apply mul_pos; auto]. }
  split; [|split; [field; exact Nd|split]].
  - replace (phi n / phi d) with (phi n * finv (phi d)) by (field; exact Nd). apply mul_real; [apply phi_real|apply pos_r, Pi].
  - replace (phi 100 - phi n / phi d) with (phi (100 * d - n) / phi d) by (rewrite (morph_sub phi_morph), (morph_mul phi_morph); field; exact Nd). apply G. nia.
  - replace (phi 100 + phi n / phi d) with (phi (100 * d + n) / phi d) by (rewrite (morph_add phi_morph), (morph_mul phi_morph); field; exact Nd). apply G. nia.
Qed.

(* ---- the loop and the particle ---- *)
Lemma loop_some rm ts v : mpc_loop X rm ts = Some v <->
  exists pre t post, ts = pre ++ t :: post /\ Forall (fun u => accepted X (turn_momentum X rm u) = false) pre /\ accepted X (turn_momentum X rm t) = true /\ v = turn_momentum X rm t.
Proof.
  induction ts as [|t ts IH]; cbn [mpc_loop].
  - split; [discriminate|]. intros (pre & t & post & E & _). destruct pre; discriminate.
  - destruct (accepted X (turn_momentum X rm t)) eqn:A.
    + split; [intros E; injection E as <-; exists [], t, ts; auto|]. intros (pre & u & post & E & F & B & ->).
      destruct pre as [|w pre]; cbn in E; injection E as -> ->; [reflexivity|]. inversion F; congruence.
    + rewrite IH. split; intros (pre & u & post & E & F & B & Ev).
      * exists (t :: pre), u, post. subst. auto.
      * destruct pre as [|w pre]; cbn in E; injection E as -> ->; [congruence|]. inversion F; subst. exists pre, u, post. auto.
Qed.
Lemma rejected x y z : accepted X (x, y, z) = false <-> x = 0 /\ y = 0 /\ im z = 0 /\ (z = 0 \/ pos (- z)).
Proof.
  unfold accepted. rewrite negb_false_iff, !andb_true_iff, negb_true_iff. split.
  - intros [[[H1 H2] H3] H4]. apply feqb_ok in H1, H2, H4. split; [exact H1|]. split; [exact H2|]. split; [exact H4|].
    rewrite (re_real z H4) in H3. destruct (pos_some _ X z H4) as [E | [P | P]]; auto. congruence.
  - intros (-> & -> & H & P). rewrite H, (re_real z H), !(proj2 (feqb_ok K 0 0) eq_refl). split; [split; [split; reflexivity|]|reflexivity].
    destruct (MpcRandom.pos X z) eqn:F; [|reflexivity]. exfalso. destruct P as [-> | P]; [apply (pos_nz 0 F); reflexivity|apply (pos_anti z F P)].
Qed.
Lemma real_turn t : turn_ok t -> let '(x, y, z) := turn_momentum X true t in real x /\ real y /\ real z.
Proof. intros (H1 & _ & H2 & _ & H3 & _). cbn. repeat split; apply frac_ok; assumption. Qed.
Lemma complex_turn t : turn_ok t -> let '(x, y, z) := turn_momentum X false t in
  (re x = rand_frac (x_re t) /\ im x = rand_frac (x_im t)) /\ (re y = rand_frac (y_re t) /\ im y = rand_frac (y_im t)) /\ (re z = rand_frac (z_re t) /\ im z = rand_frac (z_im t)).
Proof.
  intros (A & B & C & D & E & F). cbn. repeat split; apply cx_unique; apply frac_ok; assumption.
Qed.
Lemma real_turn_is t : turn_momentum X true t = (rand_frac (x_re t), rand_frac (y_re t), rand_frac (z_re t)).
Proof. reflexivity. Qed.
Lemma loop_real ts x y z : Forall turn_ok ts -> mpc_loop X true ts = Some (x, y, z) -> real x /\ real y /\ real z /\ accepted X (x, y, z) = true.
Proof.
  intros F L. apply loop_some in L as (pre & t & post & -> & _ & A & E). apply Forall_app in F as [_ F]. inversion F as [|? ? Ht _]; subst.
  pose proof (real_turn t Ht) as R. rewrite <- E in R, A. tauto.
Qed.

Lemma spinors_of cv rm ts p x y z e : mpc_loop X rm ts = Some (x, y, z) -> fsqrt (x * x + y * y + z * z) = Some e ->
  (e + z <> 0 -> (cv = Symmetric -> fsqrt (e + z) <> None) ->
     exists q, randomise_mpc X cv rm ts p = Some (q, Ok tt) /\ reproduces q /\ r2 q = slash_up i (V4 e x y z)) /\
  (e + z = 0 -> match cv with
                | Symmetric => exists q, randomise_mpc X cv rm ts p = Some (q, Ok tt) /\ r_d q = None /\ r_u q = None /\ l_d q = None /\ l_u q = None
                | Asymmetric => exists q, randomise_mpc X cv rm ts p = Some (q, Err ZeroDivisionError)
                end).
Proof.
  intros L S. unfold randomise_mpc. rewrite L, S.
  destruct (massless_outcomes cv p) as (_ & _ & H & _). destruct (H i (V4 e x y z) (ci_imag _ X) (light_like _ _ _ _ S)) as [H1 H2]. cbn [m11 slash_up c0 c3] in H1, H2. split.
  - intros N R. destruct (H1 N R) as (q & -> & Q & E & _). exists q. auto.
  - intros Z0. specialize (H2 Z0). destruct cv.
    + destruct H2 as (q & -> & Q). exists q. auto.
    + destruct (assign_four_mom Asymmetric (V4 e x y z) p) as [q r]. cbn in H2. subst r. exists q. reflexivity.
Qed.
Lemma loop_first rm ts v : mpc_loop X rm ts = Some v <->
  exists pre t post, ts = pre ++ t :: post /\ v = turn_momentum X rm t /\
    Forall (fun u => let '(x, y, z) := turn_momentum X rm u in x = 0 /\ y = 0 /\ im z = 0 /\ (z = 0 \/ pos (- z))) pre /\
    ~ (let '(x, y, z) := v in x = 0 /\ y = 0 /\ im z = 0 /\ (z = 0 \/ pos (- z))).
Proof.
  assert (R : forall p, accepted X p = false <-> let '(x, y, z) := p in x = 0 /\ y = 0 /\ im z = 0 /\ (z = 0 \/ pos (- z))) by (intros [[x y] z]; apply rejected).
  rewrite loop_some. split; intros (pre & t & post & H1 & H2 & H3 & H4); exists pre, t, post; (split; [exact H1|]).
  - split; [exact H4|]. split; [apply (Forall_impl _ (fun u => proj1 (R (turn_momentum X rm u)))), H2|]. rewrite H4. intros N. apply R in N. congruence.
  - split; [apply (Forall_impl _ (fun u => proj2 (R (turn_momentum X rm u)))), H3|]. split; [|exact H2]. rewrite <- H2. destruct (accepted X v) eqn:A; [reflexivity|]. exfalso. apply H4, R, A.
Qed.
Lemma real_momentum cv ts p x y z e : Forall turn_ok ts -> mpc_loop X true ts = Some (x, y, z) -> fsqrt (x * x + y * y + z * z) = Some e ->
  outgoing X (V4 e x y z) /\ pos (e + z) /\
  ((cv = Symmetric -> fsqrt (e + z) <> None) -> exists q, randomise_mpc X cv true ts p = Some (q, Ok tt) /\ reproduces q /\ r2 q = slash_up i (V4 e x y z)).
Proof.
  intros F L S. destruct (loop_real ts x y z F L) as (Rx & Ry & Rz & A). destruct (energy_real x y z e Rx Ry Rz A S) as [Pe Pz].
  split; [split; [|exact Pe]|split; [exact Pz|]].
  - unfold real_light. cbn. split; [apply pos_r, Pe|]. split; [exact Rx|]. split; [exact Ry|]. split; [exact Rz|]. apply (fsqrt_ok _ _ _ S).
  - apply (spinors_of cv true ts p x y z e L S), (pos_nz _ Pz).
Qed.
Lemma complex_momentum cv rm ts p x y z e : mpc_loop X rm ts = Some (x, y, z) -> fsqrt (x * x + y * y + z * z) = Some e ->
  mink (V4 e x y z) (V4 e x y z) = 0 /\
  (~ (x * x + y * y = 0 /\ backward X z) -> (cv = Symmetric -> fsqrt (e + z) <> None) ->
     exists q, randomise_mpc X cv rm ts p = Some (q, Ok tt) /\ reproduces q /\ r2 q = slash_up i (V4 e x y z)) /\
  (x * x + y * y = 0 /\ backward X z ->
     match cv with
     | Symmetric => exists q, randomise_mpc X cv rm ts p = Some (q, Ok tt) /\ r_d q = None /\ r_u q = None /\ l_d q = None /\ l_u q = None
     | Asymmetric => exists q, randomise_mpc X cv rm ts p = Some (q, Err ZeroDivisionError)
     end).
Proof.
  intros L S. split; [apply light_like, S|]. destruct (spinors_of cv rm ts p x y z e L S) as [H1 H2]. rewrite <- (energy_zero x y z e S). split; assumption.
Qed.
End Thm.
