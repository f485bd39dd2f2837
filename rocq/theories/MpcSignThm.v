(* Proofs about invariants and brackets of real momenta. *)
From Coq Require Import List ZArith Bool Lia Ring Field.
From Verif Require Import Base Fld Particle ParticleSpec ParticleThm Index IndexThm Det Phase PhaseSpec PhaseThm Compute ComputeThm MpcRandom MpcRandomSpec MpcRandomThm MpcPoint MpcPointThm MpcSignSpec.
Import ListNotations.

Section Thm.
Context {K : Fld} (X : Cx K).
Add Field Kfsgn : (fth K).
Open Scope fld_scope.
Notation i := (ci X). Notation real := (isreal X). Notation pos x := (positive X x). Notation nneg := (nneg X). Notation conj := (conj X).
Notation psK := (ps K).

(* ---- the conjugate ---- *)
Lemma conj_parts a b : real a -> real b -> conj (a + i * b) = a - i * b.
Proof. intros A B. unfold MpcSignSpec.conj. destruct (cx_unique _ X a b A B) as [-> ->]. reflexivity. Qed.
Lemma conj_real a : real a -> conj a = a.
Proof. intros A. replace a with (a + i * 0) at 1 by ring. rewrite conj_parts by (auto; apply zero_real). ring. Qed.
Lemma conj_add x y : conj (x + y) = conj x + conj y.
Proof.
  rewrite (cx_parts _ X x), (cx_parts _ X y). set (a := re X x). set (b := im X x). set (c := re X y). set (d := im X y).
  assert (A : real a) by apply im_re. assert (B : real b) by apply im_im. assert (C : real c) by apply im_re. assert (D : real d) by apply im_im.
  replace (a + i * b + (c + i * d)) with ((a + c) + i * (b + d)) by ring. rewrite !conj_parts; auto; try (apply add_real; auto). ring.
Qed.
Lemma conj_mul x y : conj (x * y) = conj x * conj y.
Proof.
  rewrite (cx_parts _ X x), (cx_parts _ X y). set (a := re X x). set (b := im X x). set (c := re X y). set (d := im X y).
  assert (A : real a) by apply im_re. assert (B : real b) by apply im_im. assert (C : real c) by apply im_re. assert (D : real d) by apply im_im.
  replace ((a + i * b) * (c + i * d)) with ((a * c + (i * i) * (b * d)) + i * (a * d + b * c)) by ring. rewrite (ii X).
  replace (a * c + - (1) * (b * d)) with (a * c - b * d) by ring.
  rewrite !conj_parts; auto; try (apply add_real; apply mul_real; auto); try (apply sub_real; apply mul_real; auto).
  replace ((a - i * b) * (c - i * d)) with (a * c + (i * i) * (b * d) - i * (a * d + b * c)) by ring. rewrite (ii X). ring.
Qed.
Lemma conj_opp x : conj (- x) = - conj x.
Proof. unfold MpcSignSpec.conj. rewrite re_opp, im_opp'. ring. Qed.

(* ---- signs ---- *)
Lemma half_pos a : real a -> pos (a + a) -> pos a.
Proof.
  intros R P. destruct (pos_some _ X a R) as [E | [Q | Q]]; [rewrite E in P; exfalso; apply (pos_nz X _ P); ring|exact Q|].
  exfalso. apply (pos_anti X (a + a) P). replace (- (a + a)) with (- a + - a) by ring. apply add_pos; exact Q.
Qed.
Lemma light_sign v : real_light X v -> pos (c0 v + c3 v) -> pos (c0 v).
Proof.
  intros (R0 & R1 & R2 & R3 & E) P. apply half_pos; [exact R0|].
  assert (N : nneg (c0 v - c3 v)).
  { destruct (neg_or X (c0 v - c3 v)) as [N | N]; [apply sub_real; auto|exact N|]. exfalso.
    apply (nneg_pos X (c1 v * c1 v + c2 v * c2 v)); [apply nneg_add; apply square_nneg; auto|].
    replace (- (c1 v * c1 v + c2 v * c2 v)) with ((c0 v + c3 v) * - (c0 v - c3 v)); [apply mul_pos; auto|].
    replace ((c0 v + c3 v) * - (c0 v - c3 v)) with (- (c0 v * c0 v) + c3 v * c3 v) by ring. rewrite E. ring. }
  replace (c0 v + c0 v) with ((c0 v + c3 v) + (c0 v - c3 v)) by ring.
  destruct N as [N | N]; [rewrite N; replace (c0 v + c3 v + 0) with (c0 v + c3 v) by ring; exact P|apply add_pos; auto].
Qed.
Lemma opp_light v : real_light X v -> real_light X (v4opp v).
Proof. intros (R0 & R1 & R2 & R3 & E). unfold real_light, v4opp. cbn. repeat (split; [apply opp_real; assumption|]). replace (- c0 v * - c0 v) with (c0 v * c0 v) by ring. rewrite E. ring. Qed.
(* the root of a negative number is imaginary *)
Lemma root_neg (x q : K) : pos (- x) -> fsqrt x = Some q -> conj q = - q.
Proof.
  intros P S. pose proof (fsqrt_ok _ _ _ S) as E. rewrite (cx_parts _ X q) in E |- *. set (a := re X q) in *. set (b := im X q) in *.
  assert (A : real a) by apply im_re. assert (B : real b) by apply im_im.
  assert (E' : (a * a - b * b) + i * (a * b + a * b) = x + i * 0).
  { rewrite <- E. replace ((a + i * b) * (a + i * b)) with (a * a + (i * i) * (b * b) + i * (a * b + a * b)) by ring. rewrite (ii X). ring. }
  assert (Rx : real x) by (replace x with (- - x) by ring; apply opp_real, pos_r, P).
  apply (parts_eq X) in E' as [E1 E2]; [|apply sub_real; apply mul_real; auto|apply add_real; apply mul_real; auto|exact Rx|apply zero_real].
  apply two_zero, mul_zero in E2. assert (a = 0) as ->.
  { destruct E2 as [E2 | E2]; [exact E2|]. exfalso. apply (nneg_pos X (a * a)); [apply square_nneg; exact A|]. rewrite E2 in E1. replace (a * a) with x by (rewrite <- E1; ring). exact P. }
  rewrite conj_parts by (auto; apply zero_real). ring.
Qed.

(* ---- the spinors of a real momentum ---- *)
Definition spinors_real cv (p : particle K) (v : v4 K) : Prop :=
  forall r, r_d p = Some r -> exists l lam, l_d p = Some l /\ factor X cv v lam /\ l = V2 (lam * conj (e0 r)) (lam * conj (e1 r)).
Lemma assigned_spinors cv (v : v4 K) p q : assign_four_mom cv v p = (q, Ok tt) ->
  (r_d q = None /\ l_d q = None) \/
  (c0 v + c3 v <> 0 /\ match cv with
   | Symmetric => exists y, fsqrt (c0 v + c3 v) = Some y /\ y <> 0 /\ r_d q = Some (V2 y ((c1 v + c2 v * i) / y)) /\ l_d q = Some (V2 y ((c1 v - c2 v * i) / y))
   | Asymmetric => r_d q = Some (V2 (c0 v + c3 v) (c1 v + c2 v * i)) /\ l_d q = Some (V2 1 ((c1 v - c2 v * i) / (c0 v + c3 v)))
   end).
Proof.
  rewrite (assign_four_mom_i cv v p i (ci_imag _ X)). unfold spinors_from_fm, four_mom_to_r_sp_d, four_mom_to_l_sp_d, set_r_sp_d_from, set_l_sp_d_from.
  destruct cv; cbv beta iota delta [try_except bind get sqrtM ret raise lift divE modify r_sp_d_to_r_sp_u l_sp_d_to_l_sp_u need need_i caught clear_spinors];
    cbn [fm r_d l_d r_u l_u set_rd set_ru set_ld set_lu]; rewrite (ci_imag _ X); cbn [fm r_d l_d r_u l_u set_rd set_ru set_ld set_lu].
  - destruct (feqb (c0 v + c3 v) 0) eqn:Z; [intros E; injection E as <-; left; split; reflexivity|].
    assert (NZ : c0 v + c3 v <> 0) by (intros G; apply feqb_ok in G; congruence).
    destruct (fsqrt (c0 v + c3 v)) as [y|] eqn:S; [|intros E; injection E as <-; left; split; reflexivity].
    assert (Ny : y <> 0) by (intros ->; apply NZ; rewrite <- (fsqrt_ok _ _ _ S); ring).
    rewrite (proj2 (feqb_neq y 0) Ny). cbn [fm r_d l_d r_u l_u set_rd set_ru set_ld set_lu]. try rewrite Z, S, (proj2 (feqb_neq y 0) Ny).
    cbn [fm r_d l_d r_u l_u set_rd set_ru set_ld set_lu]. intros E. injection E as <-. right. split; [exact NZ|]. exists y. auto.
  - destruct (feqb (c0 v + c3 v) 0) eqn:Z; [discriminate|].
    assert (NZ : c0 v + c3 v <> 0) by (intros G; apply feqb_ok in G; congruence).
    cbn [fm r_d l_d r_u l_u set_rd set_ru set_ld set_lu]. intros E. injection E as <-. right. split; [exact NZ|]. auto.
Qed.
Lemma conj_div (w y : K) : y <> 0 -> conj y <> 0 -> conj (w / y) = conj w / conj y.
Proof.
  intros N N'. assert (E : conj (w / y) * conj y = conj w) by (rewrite <- conj_mul; f_equal; field; exact N). rewrite <- E. field. exact N'.
Qed.
Lemma spinors_of_real cv (v : v4 K) p q : real_light X v -> assign_four_mom cv v p = (q, Ok tt) -> spinors_real cv q v.
Proof.
  intros L E r Hr. assert (L' := L). destruct L as (R0 & R1 & R2 & R3 & _). assert (RZ : real (c0 v + c3 v)) by (apply add_real; auto).
  assert (CW : conj (c1 v + c2 v * i) = c1 v - c2 v * i).
  { replace (c1 v + c2 v * i) with (c1 v + i * c2 v) by ring. rewrite conj_parts by auto. ring. }
  destruct (assigned_spinors cv v p q E) as [[H _]|[NZ H]]; [congruence|]. destruct cv.
  - destruct H as (y & S & Ny & Er & El). rewrite Er in Hr. injection Hr as <-. cbn [e0 e1].
    destruct (pos_some _ X _ RZ) as [E0 | [P | P]]; [congruence| |].
    + assert (Ry : real y) by (apply nneg_r, (root_nneg X _ _ (or_intror P) S)). assert (Cy : conj y = y) by (apply conj_real, Ry).
      exists (V2 y ((c1 v - c2 v * i) / y)), 1. split; [exact El|]. split; [left; split; [apply light_sign; auto|reflexivity]|].
      rewrite conj_div by (try rewrite Cy; auto). rewrite CW, Cy. f_equal; field; exact Ny.
    + assert (Cy : conj y = - y) by (apply (root_neg _ _ P S)). assert (Ny' : - y <> 0) by (intros G; apply Ny; replace y with (- - y) by ring; rewrite G; ring).
      exists (V2 y ((c1 v - c2 v * i) / y)), (- (1)). split; [exact El|]. split.
      * right. split; [|reflexivity]. apply (light_sign (v4opp v)); [apply opp_light, L'|]. unfold v4opp. cbn. replace (- c0 v + - c3 v) with (- (c0 v + c3 v)) by ring. exact P.
      * rewrite conj_div by (try rewrite Cy; auto). rewrite CW, Cy. f_equal; [ring|field; auto].
  - destruct H as (Er & El). rewrite Er in Hr. injection Hr as <-. cbn [e0 e1]. exists (V2 1 ((c1 v - c2 v * i) / (c0 v + c3 v))), (finv (c0 v + c3 v)).
    split; [exact El|]. split; [cbn; field; exact NZ|]. rewrite CW, (conj_real _ RZ). f_equal; field; exact NZ.
Qed.
(* brackets of two legs with such spinors *)
Lemma brackets_conj cv (s : psK) a b pa pb va vb x : getitem s a = Ok pa -> getitem s b = Ok pb -> consistent pa -> consistent pb -> spinors_real cv pa va -> spinors_real cv pb vb ->
  c_A2 s a b = Ok x -> exists la lb, factor X cv va la /\ factor X cv vb lb /\ c_S2 s b a = Ok (la * lb * conj x).
Proof.
  intros Ga Gb Ca Cb Sa Sb. unfold c_A2, c_S2. rewrite Ga, Gb. cbn [rbind]. rewrite (cons_r _ Ca). destruct (r_d pa) as [ra|] eqn:Ea; [|discriminate]. cbn [option_map need_r rbind].
  destruct (r_d pb) as [rb|] eqn:Eb; [|discriminate]. cbn [need_r rbind]. intros E. injection E as <-.
  destruct (Sa ra Ea) as (l & lam & El & Fl & Hl). destruct (Sb rb Eb) as (l' & lam' & El' & Fl' & Hl'). exists lam, lam'. split; [exact Fl|]. split; [exact Fl'|].
  rewrite (cons_l _ Ca), El, El'. cbn [option_map need_r rbind]. f_equal. rewrite Hl, Hl'. unfold vdot, raise_r. cbn [e0 e1]. rewrite conj_add, !conj_mul, conj_opp. ring.
Qed.

(* ---- every leg of a real point ---- *)
Lemma leg_spinors cv ts p v : mpc_leg X cv true ts = Some (Ok p) -> fm p = Some v -> real_light X v -> spinors_real cv p v.
Proof.
  intros L F R. apply leg_cases in L as (x & y & z & L & [[_ L'] | (e & S & L')]); [discriminate|]. symmetry in L'. unfold new_four_mom in L'.
  destruct (assign_four_mom cv (V4 e x y z) blank) as [q [[]|]] eqn:A; [|discriminate]. injection L' as ->.
  assert (G : fm p = Some (V4 e x y z)) by (pose proof (f_equal fst A) as B; cbn in B; rewrite <- B; apply (fm_of_assign X)).
  rewrite F in G. injection G as ->. apply (spinors_of_real cv _ blank); auto.
Qed.
Lemma point_spinors cv tss ref sample s : Forall (Forall turn_ok) tss -> sample_ok (length tss) sample -> (3 <= length tss)%nat ->
  new_mpc X cv true tss ref sample true = Some (s, Ok tt) -> forall k p v, getitem s k = Ok p -> fm p = Some v -> spinors_real cv p v.
Proof.
  intros F HS L E. assert (N0 : tss <> []) by (intros ->; cbn in L; lia).
  destruct (new_shape X cv tss ref sample F N0 _ E) as [(e & E' & _) | (s0 & r & EL & _ & E')]; [discriminate|].
  destruct (setup X cv tss s0 F EL) as (L0 & H & C & _). rewrite <- L0 in HS, L.
  assert (SP : Forall (fun p => forall v, fm p = Some v -> real_light X v -> spinors_real cv p v) s0).
  { apply (legs_are X cv true tss s0 (fun p => forall v, fm p = Some v -> real_light X v -> spinors_real cv p v)); [|exact EL]. intros ts p _ Hl v. apply leg_spinors with (ts := ts). exact Hl. }
  destruct (sample_legs s0 sample ltac:(lia) HS) as (A & B & pA & pB & -> & N & HA & HB & GA & GB).
  rewrite (fix_is (K := K)) in E' by assumption. destruct (others_vs X s0 A B pA pB H N GA GB) as (os & vs & HO & Hvs & F2 & O & Lv).
  assert (Nv : vs <> []) by (intros ->; cbn in Lv; lia).
  pose proof (fix_real_ok cv s0 A B 1 pA pB i vs (ci_imag _ X) N GA GB C L (or_introl eq_refl) (ex_intro _ os (Logic.conj HO Hvs)) (v4sum vs) (c1 (v4sum vs)) eq_refl eq_refl) as [Z1 Z2].
  destruct (feqb (c0 (v4sum vs)) (c1 (v4sum vs))) eqn:Q; [apply feqb_ok in Q; rewrite (Z1 Q) in E'; congruence|].
  assert (HZ : c0 (v4sum vs) <> c1 (v4sum vs)) by (intros G; apply feqb_ok in G; congruence).
  destruct (Z2 HZ) as (s' & res & Er & _ & Z3). rewrite <- E' in Er. injection Er as <- <-. clear Z1 Z2.
  destruct (Z3 eq_refl) as (qA & qB & vA & vB & T & [Ls U] & GA' & GB' & CA' & CB' & lA & lB & _ & _ & _). clear Z3.
  assert (CA : consistent pA) by (apply (proj1 (Forall_getitem _ s0) C A pA GA)). assert (CB : consistent pB) by (apply (proj1 (Forall_getitem _ s0) C B pB GB)).
  destruct (fix_run X cv s0 A B pA pB os vs N GA GB CA CB HO Hvs Nv HZ) as (s1 & s2 & qA2 & qB2 & rA & rB & Run & EA & EB & G1 & G2 & F1 & F3).
  destruct (fixed_signs X vs Nv O HZ) as (Sx & LA & IB). rewrite <- E' in Run. destruct rA as [[]|]; [|congruence]. injection Run as -> <-.
  rewrite GA' in G1. injection G1 as <-. rewrite GB' in G2. injection G2 as <-.
  intros k p v G Fv. destruct (Z.eq_dec k A) as [->|NA]; [|destruct (Z.eq_dec k B) as [->|NB]].
  - rewrite GA' in G. injection G as <-. rewrite F1 in Fv. injection Fv as <-. apply (spinors_of_real cv _ pA); auto.
  - rewrite GB' in G. injection G as <-. rewrite F3 in Fv. injection Fv as <-. apply (spinors_of_real cv _ pB); [apply IB|exact EB].
  - rewrite (U k NA NB) in G. destruct (proj1 (Forall_getitem _ s0) H k p G) as (w & (C1 & C2 & C3 & C4) & Ov). assert (w = v) as -> by congruence.
    apply (proj1 (Forall_getitem _ s0) SP k p G v Fv). apply Ov.
Qed.
Theorem point_brackets cv tss ref sample s a b pa pb va vb x : Forall (Forall turn_ok) tss -> sample_ok (length tss) sample -> (3 <= length tss)%nat ->
  new_mpc X cv true tss ref sample true = Some (s, Ok tt) -> getitem s a = Ok pa -> getitem s b = Ok pb -> fm pa = Some va -> fm pb = Some vb -> c_A2 s a b = Ok x ->
  exists la lb, factor X cv va la /\ factor X cv vb lb /\ c_S2 s b a = Ok (la * lb * conj x).
Proof.
  intros F HS L E Ga Gb Fa Fb. destruct (new_real X cv tss ref sample s F HS L E) as (A & B & _ & _ & _ & H).
  destruct (H a pa Ga) as (Ca & _). destruct (H b pb Gb) as (Cb & _). pose proof (point_spinors cv tss ref sample s F HS L E) as SP.
  apply (brackets_conj cv s a b pa pb va vb x Ga Gb Ca Cb); eauto.
Qed.

(* ---- Mandelstam invariants ---- *)
Definition legs_with (s : psK) (P : v4 K -> Prop) (l : list Z) : Prop := forall k, In k l -> exists p v, getitem s k = Ok p /\ consistent p /\ fm p = Some v /\ P v.
Lemma sum_legs (s : psK) P l : legs_with s P l -> exists vs, rmapM (mom false s) l = Ok (map (slash_up i) vs) /\ Forall P vs /\ length vs = length l.
Proof.
  induction l as [|k l IH]; intros H; [exists []; repeat split; constructor|].
  destruct (H k (or_introl eq_refl)) as (p & v & G & C & F & Pv). destruct IH as (vs & E & FP & L); [intros j Hj; apply H; right; exact Hj|].
  exists (v :: vs). cbn [rmapM map]. unfold mom at 1. rewrite G. cbn [rmap rbind]. rewrite E. pose proof (cons_fm _ C) as Cf. rewrite F in Cf. destruct Cf as (_ & j & Hj & Er & _).
  rewrite (ci_imag _ X) in Hj. injection Hj as <-. rewrite Er. split; [reflexivity|]. split; [constructor; auto|cbn; congruence].
Qed.
Lemma mand_value (s : psK) P l : l <> [] -> legs_with s P l -> exists vs, Forall P vs /\ length vs = length l /\
  c_S s l = Ok (let v := v4sum vs in c0 v * c0 v - (c1 v * c1 v + c2 v * c2 v + c3 v * c3 v)).
Proof.
  intros N H. destruct (sum_legs s P l H) as (vs & E & FP & L). exists vs. split; [exact FP|]. split; [exact L|]. unfold c_S, mom_sum. destruct l as [|k l]; [congruence|]. rewrite E. cbn [rbind].
  f_equal. rewrite slash_sum, det2_mdet, (mdet_slash i) by apply ci_imag. cbv zeta. ring.
Qed.
Lemma opp_sum vs : v4sum (map (@v4opp K) vs) = v4opp (v4sum vs).
Proof. induction vs as [|v vs IH]; cbn [map v4sum fold_right]; [unfold v4opp, v4zero; cbn; f_equal; ring|]. fold (v4sum vs). fold (v4sum (map (@v4opp K) vs)). rewrite IH. unfold v4add, v4opp. cbn. f_equal; ring. Qed.
Lemma incoming_opp v : incoming X v -> outgoing X (v4opp v).
Proof. intros [L P]. split; [apply opp_light, L|exact P]. Qed.
Theorem mand_outgoing (s : psK) l : l <> [] -> legs_with s (outgoing X) l -> exists x, c_S s l = Ok x /\ not_negative X x.
Proof.
  intros N H. destruct (mand_value s _ l N H) as (vs & F & _ & E). eexists. split; [exact E|].
  apply (cone_sum X vs (Forall_impl _ (outgoing_cone X) F)).
Qed.
Theorem mand_incoming (s : psK) l : l <> [] -> legs_with s (incoming X) l -> exists x, c_S s l = Ok x /\ not_negative X x.
Proof.
  intros N H. destruct (mand_value s _ l N H) as (vs & F & _ & E). eexists. split; [exact E|]. cbv zeta.
  assert (G : Forall (outgoing X) (map (@v4opp K) vs)) by (apply Forall_map; eapply Forall_impl; [|exact F]; intros a; apply incoming_opp).
  destruct (cone_sum X _ (Forall_impl _ (outgoing_cone X) G)) as (_ & _ & _ & _ & Q). rewrite opp_sum in Q. unfold v4opp in Q. cbn in Q.
  match type of Q with MpcRandomThm.nneg X ?a => match goal with |- not_negative X ?b => replace b with a by ring end end. exact Q.
Qed.
Theorem mand_mixed (s : psK) a b pa pb va vb : getitem s a = Ok pa -> getitem s b = Ok pb -> consistent pa -> consistent pb -> fm pa = Some va -> fm pb = Some vb ->
  outgoing X va -> incoming X vb -> exists x, c_S s [a; b] = Ok x /\ not_negative X (- x).
Proof.
  intros Ga Gb Ca Cb Fa Fb Oa Ib. destruct (mand_value s (fun v => (v = va \/ v = vb)) [a; b]) as (vs & _ & _ & _); [discriminate| |].
  { intros k [<-|[<-|[]]]; eauto 10. }
  assert (E : c_S s [a; b] = Ok (mdet (slash_up i (v4sum [va; vb])))).
  { unfold c_S, mom_sum. cbn [rmapM]. unfold mom. rewrite Ga, Gb. cbn [rmap rbind].
    pose proof (cons_fm _ Ca) as Ea. rewrite Fa in Ea. destruct Ea as (_ & j & Hj & Ea & _). pose proof (cons_fm _ Cb) as Eb. rewrite Fb in Eb. destruct Eb as (_ & j' & Hj' & Eb & _).
    rewrite (ci_imag _ X) in Hj, Hj'. injection Hj as <-. injection Hj' as <-. rewrite Ea, Eb, <- slash_sum, <- det2_mdet. reflexivity. }
  eexists. split; [exact E|]. rewrite (mdet_slash i) by apply ci_imag.
  destruct (cone_add X _ _ (outgoing_cone X _ Oa) (outgoing_cone X _ (incoming_opp _ Ib))) as (_ & _ & _ & _ & Q).
  destruct Oa as [(_ & _ & _ & _ & La) _]. destruct Ib as [(_ & _ & _ & _ & Lb) _]. unfold v4opp in Q. cbn in Q |- *.
  match type of Q with MpcRandomThm.nneg X ?y => match goal with |- not_negative X ?z => replace z with y; [exact Q|] end end.
  match goal with |- ?y = ?z => replace y with (c0 va * c0 va + c0 vb * c0 vb - (c1 va * c1 va + c2 va * c2 va + c3 va * c3 va) - (c1 vb * c1 vb + c2 vb * c2 vb + c3 vb * c3 vb) - 2 * (c0 va * c0 vb - (c1 va * c1 vb + c2 va * c2 vb + c3 va * c3 vb))) by ring;
    replace z with (- (c0 va * c0 va + c0 vb * c0 vb - (c1 va * c1 va + c2 va * c2 va + c3 va * c3 va) - (c1 vb * c1 vb + c2 vb * c2 vb + c3 vb * c3 vb)) - 2 * (c0 va * c0 vb - (c1 va * c1 vb + c2 va * c2 vb + c3 va * c3 vb))) by ring end.
  rewrite La, Lb. ring.
Qed.
End Thm.
