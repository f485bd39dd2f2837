(* Reduction of a point modulo a prime: compute commutes with it. *)
From Coq Require Import List ZArith Bool Lia QArith Field InitialRing.
From Verif Require Import Base Fld Particle ParticleSpec ParticleThm Index Phase PhaseSpec PhaseThm Det Arcs Compute Str Masses Parse Text Reduce ReduceSpec.
Import ListNotations.

Lemma red_bind {A B A' B'} (R : A -> B -> Prop) (S : A' -> B' -> Prop) x y g h :
  red_result R x y -> (forall a b, R a b -> red_result S (g a) (h b)) -> red_result S (rbind x g) (rbind y h).
Proof. destruct x, y; cbn; intros H F; auto; contradiction. Qed.
Lemma red_rmap {A B A' B'} (R : A -> B -> Prop) (S : A' -> B' -> Prop) x y g h :
  red_result R x y -> (forall a b, R a b -> S (g a) (h b)) -> red_result S (rmap g x) (rmap h y).
Proof. destruct x, y; cbn; intros H F; auto; contradiction. Qed.
Lemma upto_bind {A B A' B'} (R : A -> B -> Prop) (S : A' -> B' -> Prop) x y g h :
  red_upto R x y -> (forall a b, R a b -> red_upto S (g a) (h b)) -> red_upto S (rbind x g) (rbind y h).
Proof.
  intros [->|H] F; [left; reflexivity|]. destruct x, y; cbn in H; try contradiction; cbn; [apply F; exact H|].
  subst. right; cbn; reflexivity.
Qed.
Lemma upto_rmap {A B A' B'} (R : A -> B -> Prop) (S : A' -> B' -> Prop) x y g h :
  red_upto R x y -> (forall a b, R a b -> S (g a) (h b)) -> red_upto S (rmap g x) (rmap h y).
Proof. intros [->|H] F; [left; reflexivity|right; eapply red_rmap; eassumption]. Qed.
Lemma upto_of {A B} (R : A -> B -> Prop) x y : red_result R x y -> red_upto R x y.
Proof. intros H; right; exact H. Qed.
Lemma red_rmapM {A B C D} (R : C -> D -> Prop) (g : A -> result C) (h : B -> result D) l l' (Q : A -> B -> Prop) :
  (forall a b, Q a b -> red_result R (g a) (h b)) -> Forall2 Q l l' -> red_result (Forall2 R) (rmapM g l) (rmapM h l').
Proof.
  intros F H. induction H as [|a b l l' Hab H IH]; cbn; [constructor|].
  specialize (F _ _ Hab). destruct (g a), (h b); cbn in F; try contradiction; [|exact F].
  destruct (rmapM g l), (rmapM h l'); cbn in IH; try contradiction; cbn; [constructor; assumption|exact IH].
Qed.

Lemma F2_len {A B} (R : A -> B -> Prop) l l' : Forall2 R l l' -> length l = length l'.
Proof. induction 1; cbn; congruence. Qed.
Lemma F2_map {A B C D} (R : A -> B -> Prop) (Q : C -> D -> Prop) g h l l' :
  (forall a b, R a b -> Q (g a) (h b)) -> Forall2 R l l' -> Forall2 Q (map g l) (map h l').
Proof. intros F. induction 1; cbn; constructor; auto. Qed.

Section Thm.
Context {K L : Fld}.
Open Scope fld_scope.
Variable f : K -> result L.
Hypothesis P : place f.
Add Field KfReduce : (fth K).
Add Field LfReduce : (fth L).

Notation "x ~> y" := (f x = Ok y) (at level 70).
Notation Rv := (red_v f). Notation Rm := (red_m f).

Lemma p_0 : 0 ~> 0.
Proof.
  replace (0 : K) with (1 + - (1) : K) by ring. replace (0 : L) with (1 + - (1) : L) by ring.
  apply (pl_add f P); [apply (pl_1 f P)|apply (pl_opp f P), (pl_1 f P)].
Qed.
Lemma p_sub x y a b : x ~> a -> y ~> b -> (x - y) ~> (a - b).
Proof.
  intros H G. replace (x - y) with (x + - y) by ring. replace (a - b) with (a + - b) by ring.
  apply (pl_add f P); [exact H|apply (pl_opp f P), G].
Qed.
Lemma p_div x y a b : x ~> a -> y ~> b -> b <> 0 -> (x / y) ~> (a / b).
Proof.
  intros H G N. replace (x / y) with (x * finv y). replace (a / b) with (a * finv b) by (field; exact N).
  - apply (pl_mul f P); [exact H|apply (pl_inv f P); assumption].
  - rewrite (Fdiv_def (fth K)). reflexivity.
Qed.
Lemma p_2 : 2 ~> 2.
Proof. apply (pl_add f P); apply (pl_1 f P). Qed.
Lemma p_half x a : x ~> a -> (x / 2) ~> (a / 2).
Proof. intros H. apply p_div; [exact H|apply p_2|apply f2_nz]. Qed.
Lemma p_zero_inv x a : x ~> a -> a <> 0 -> x <> 0.
Proof. intros H N ->. rewrite p_0 in H. inversion H; subst. apply N; reflexivity. Qed.

Ltac pp := repeat first
  [ eassumption | apply p_half | apply p_2 | apply p_0 | apply (pl_1 f P)
  | apply (pl_add f P) | apply (pl_mul f P) | apply (pl_opp f P) | apply p_sub ].
Ltac open := unfold red_v, red_m in *; repeat match goal with H : _ /\ _ |- _ => destruct H end.
Ltac comp := open; cbn; repeat split; pp.

Lemma r_madd a b a' b' : Rm a a' -> Rm b b' -> Rm (madd a b) (madd a' b'). Proof. intros; comp. Qed.
Lemma r_msub a b a' b' : Rm a a' -> Rm b b' -> Rm (msub a b) (msub a' b'). Proof. intros; comp. Qed.
Lemma r_mmul a b a' b' : Rm a a' -> Rm b b' -> Rm (mmul a b) (mmul a' b'). Proof. intros; comp. Qed.
Lemma r_mzero : Rm mzero mzero. Proof. comp. Qed.
Lemma r_mv a b a' b' : Rm a a' -> Rv b b' -> Rv (mv a b) (mv a' b'). Proof. intros; comp. Qed.
Lemma r_vm a b a' b' : Rv a a' -> Rm b b' -> Rv (vm a b) (vm a' b'). Proof. intros; comp. Qed.
Lemma r_outer a b a' b' : Rv a a' -> Rv b b' -> Rm (outer a b) (outer a' b'). Proof. intros; comp. Qed.
Lemma r_raise a a' : Rv a a' -> Rv (raise_r a) (raise_r a'). Proof. intros; comp. Qed.
Lemma r_vdot a b a' b' : Rv a a' -> Rv b b' -> vdot a b ~> vdot a' b'. Proof. intros; open; unfold vdot; pp. Qed.
Lemma r_mtr a a' : Rm a a' -> mtr a ~> mtr a'. Proof. intros; open; unfold mtr; pp. Qed.
Lemma r_alt n : alt n ~> alt n.
Proof. unfold alt. destruct (Nat.even n); pp. Qed.

Lemma r_fold {A} (g : A -> K) (h : A -> L) l : forall x y, x ~> y -> (forall c, In c l -> g c ~> h c) ->
  fold_left (fun acc c => acc + g c) l x ~> fold_left (fun acc c => acc + h c) l y.
Proof.
  induction l as [|c l IH]; cbn [fold_left]; intros x y H G; [exact H|].
  apply IH; [|intros; apply G; right; assumption]. apply (pl_add f P); [exact H|apply G; left; reflexivity].
Qed.
Lemma r_det n : forall (m : mat K) (m' : mat L), (forall i j, m i j ~> m' i j) -> det n m ~> det n m'.
Proof.
  induction n as [|n IH]; intros m m' H; [apply p_0|].
  cbn [det]. destruct n; [apply H|]. unfold lsum. apply r_fold; [apply p_0|].
  intros c _. apply (pl_mul f P); [apply (pl_mul f P); [apply r_alt|apply H]|].
  apply IH. intros i j. unfold minor. apply H.
Qed.
Lemma r_det2 a a' : Rm a a' -> det2 a ~> det2 a'.
Proof. intros (?&?&?&?). unfold det2. apply r_det. intros [|i] [|j]; cbn; assumption. Qed.

Definition Ro {A B} (R : A -> B -> Prop) (x : option A) (y : option B) : Prop :=
  match x, y with Some a, Some b => R a b | None, None => True | _, _ => False end.
(* the two particles compute cannot tell apart *)
Definition Rp (p : particle K) (q : particle L) : Prop :=
  Ro Rv (r_u p) (r_u q) /\ Ro Rv (r_d p) (r_d q) /\ Ro Rv (l_u p) (l_u q) /\ Ro Rv (l_d p) (l_d q) /\
  Rm (r2 p) (r2 q) /\ Rm (r2b p) (r2b q).

Section Point.
Variables (s : ps K) (s' : ps L).
Hypothesis H2 : Forall2 Rp s s'.

Lemma same_len : length s' = length s.
Proof. symmetry. eapply F2_len; exact H2. Qed.
Lemma same_zlen : zlen s' = zlen s.
Proof. unfold zlen. rewrite same_len. reflexivity. Qed.
Lemma r_nth : forall n, Ro Rp (nth_error s n) (nth_error s' n).
Proof. clear P. intros n. revert n. generalize H2. clear H2. intros H. induction H; intros [|n]; cbn; auto. Qed.
Lemma r_get k : red_result Rp (getitem s k) (getitem s' k).
Proof.
  unfold getitem. rewrite same_zlen. destruct (rebase (zlen s) k) as [i|e]; cbn; [|reflexivity].
  unfold list_get. pose proof (r_nth (Z.to_nat i)) as N.
  destruct (nth_error s (Z.to_nat i)), (nth_error s' (Z.to_nat i)); cbn in N |- *; auto.
Qed.
Lemma r_need {A B} (R : A -> B -> Prop) x y : Ro R x y -> red_result R (need_r x) (need_r y).
Proof. destruct x, y; cbn; auto; contradiction. Qed.

Lemma r_mom b k : red_result Rm (mom b s k) (mom b s' k).
Proof.
  unfold mom. eapply red_rmap; [apply r_get|]. intros p q (_&_&_&_&?&?). destruct b; assumption.
Qed.
Lemma r_entry_rest b l : forall m m', Rm m m' -> red_result Rm (entry_rest b s m l) (entry_rest b s' m' l).
Proof.
  induction l as [|[sg k] l IH]; cbn; intros m m' H; [exact H|].
  eapply red_bind; [apply r_mom|]. intros a a' Ha. apply IH. destruct sg; [apply r_madd|apply r_msub]; assumption.
Qed.
Lemma r_entry b e : red_result Rm (entry_val b s e) (entry_val b s' e).
Proof. unfold entry_val. eapply red_bind; [apply r_mom|]. intros; apply r_entry_rest; assumption. Qed.
Lemma r_mid_rest es : forall b m m', Rm m m' -> red_result Rm (mid_rest b s m es) (mid_rest b s' m' es).
Proof.
  induction es as [|e es IH]; cbn; intros b m m' H; [exact H|].
  eapply red_bind; [apply r_entry|]. intros a a' Ha. apply IH, r_mmul; assumption.
Qed.
Lemma r_middle b es : red_result Rm (middle b s es) (middle b s' es).
Proof.
  destruct es as [|e es]; [reflexivity|]. cbn [middle].
  eapply red_bind; [apply r_entry|]. intros; apply r_mid_rest; assumption.
Qed.
Lemma r_msum l l' : Forall2 Rm l l' -> Rm (msum l) (msum l').
Proof.
  intros H. unfold msum. assert (G : Rm mzero mzero) by apply r_mzero. revert G. generalize (@mzero K), (@mzero L).
  induction H as [|a b l l' Hab H IH]; cbn [fold_left fold_right]; intros x y G; try exact G.
  all: try (apply IH, r_madd; assumption). all: try (apply r_madd; [assumption|apply IH; exact G]).
Qed.
Lemma diag {A} (l : list A) : Forall2 eq l l.
Proof. induction l; constructor; auto. Qed.
Lemma r_mom_sum b l : red_result Rm (mom_sum b s l) (mom_sum b s' l).
Proof.
  destruct l as [|k l]; [reflexivity|]. unfold mom_sum. eapply red_bind.
  - eapply red_rmapM; [|apply diag]. intros a ? <-. apply r_mom.
  - intros x y H. apply r_msum, H.
Qed.
Lemma r_S l : red_result (fun x y => x ~> y) (c_S s l) (c_S s' l).
Proof. unfold c_S. eapply red_bind; [apply r_mom_sum|]. intros; apply r_det2; assumption. Qed.
Ltac parts := match goal with H : Rp _ _ |- _ => let H' := fresh in pose proof H as H'; destruct H' as (?&?&?&?&?&?) end.
Ltac rb := eapply red_bind; [first [apply r_get|apply r_middle|apply r_mom_sum|apply r_S|eapply r_need; eassumption]|intros; try parts].
Lemma r_chain o a es d c : red_result (fun x y => x ~> y) (c_chain s o a es d c) (c_chain s' o a es d c).
Proof.
  unfold c_chain. destruct (negb _); [reflexivity|]. rb.
  eapply red_bind with (R := Rv). { destruct o; rb; rb; cbn; apply r_vm; assumption. }
  intros v w Hv. rb.
  eapply red_bind with (R := Rv). { destruct c; (eapply r_need; eassumption). }
  intros x y Hx. apply r_vdot; assumption.
Qed.
Lemma r_open_begin es d c : red_result Rv (c_open_begin s es d c) (c_open_begin s' es d c).
Proof.
  unfold c_open_begin. rb. rb.
  eapply red_bind with (R := Rv). { destruct c; (eapply r_need; eassumption). }
  intros x y Hx. apply r_mv; assumption.
Qed.
Lemma r_open_end o a es : red_result Rv (c_open_end s o a es) (c_open_end s' o a es).
Proof. unfold c_open_end. rb. destruct o; rb; rb; cbn; apply r_vm; assumption. Qed.
Lemma r_tr5 a b c d : red_result (fun x y => x ~> y) (c_tr5 s a b c d) (c_tr5 s' a b c d).
Proof.
  unfold c_tr5. destruct (tr5_rotate 4 a b c d) as [[[[a1 b1] c1] d1]|e]; cbn -[c_chain]; [|reflexivity].
  eapply red_bind; [apply r_chain|]. intros. eapply red_bind; [apply r_chain|]. intros. apply p_sub; assumption.
Qed.
Lemma r_nth_m l l' i : Forall2 Rm l l' -> Rm (nth i l mzero) (nth i l' mzero).
Proof. intros H. revert i. induction H; intros [|i]; cbn; auto using r_mzero. Qed.
Lemma r_delta cs : red_result (fun x y => x ~> y) (c_delta s cs) (c_delta s' cs).
Proof.
  unfold c_delta. eapply red_bind.
  { eapply red_rmapM; [|apply diag]. intros a ? <-. apply r_mom_sum. }
  intros m m' Hm. eapply red_bind.
  { eapply red_rmapM; [|apply diag]. intros a ? <-. apply r_mom_sum. }
  intros n n' Hn. cbn. apply (pl_mul f P); [apply r_alt|]. apply r_det. intros i j.
  apply p_half, r_mtr, r_mmul; apply r_nth_m; assumption.
Qed.
Lemma r_delta3 ijk : red_result (fun x y => x ~> y) (c_delta3 s ijk) (c_delta3 s' ijk).
Proof.
  unfold c_delta3. rewrite same_len, same_zlen. destruct (arcs _ _ _) as [[[l0 l1] l2]|e]; cbn -[mom_sum]; [|reflexivity].
  rb. rb. cbn. apply p_sub; apply (pl_mul f P); (apply r_det2 || (apply p_half, r_mtr, r_mmul)); assumption.
Qed.
Lemma r_Omega ijk : red_result (fun x y => x ~> y) (c_Omega s ijk) (c_Omega s' ijk).
Proof.
  unfold c_Omega. rewrite same_len, same_zlen. destruct (arcs _ _ _) as [[[l0 l1] l2]|e]; cbn -[c_S]; [|reflexivity].
  do 3 rb. eapply red_bind with (R := fun x y => x ~> y). { destruct l0; [reflexivity|apply r_S]. }
  intros; cbn; pp.
Qed.
Lemma r_Pi ijk : red_result (fun x y => x ~> y) (c_Pi s ijk) (c_Pi s' ijk).
Proof.
  unfold c_Pi. rewrite same_len, same_zlen. destruct (arcs _ _ _) as [[[l0 l1] l2]|e]; cbn -[c_S]; [|reflexivity].
  destruct l0 as [|x [|y l0]]; try reflexivity. do 2 rb. cbn; pp.
Qed.
Lemma r_delta5 : red_result (fun x y => x ~> y) (c_delta5 s) (c_delta5 s').
Proof. unfold c_delta5. do 5 rb. cbn. pp. Qed.
Lemma r_tr es : red_result (fun x y => x ~> y) (c_tr s es) (c_tr s' es).
Proof. unfold c_tr. rb. apply r_mtr; assumption. Qed.
Lemma r_A2 a b : red_result (fun x y => x ~> y) (c_A2 s a b) (c_A2 s' a b).
Proof. unfold c_A2. do 4 rb. apply r_vdot; assumption. Qed.
Lemma r_S2 a b : red_result (fun x y => x ~> y) (c_S2 s a b) (c_S2 s' a b).
Proof. unfold c_S2. do 4 rb. apply r_vdot; assumption. Qed.

Lemma compute_red e : red_result (red_val f) (compute s e) (compute s' e).
Proof.
  destruct e; unfold compute; eapply red_rmap;
    first [ apply r_tr5 | apply r_tr | apply r_Omega | apply r_Pi | apply r_delta | apply r_delta3 | apply r_delta5
          | apply r_S | apply r_A2 | apply r_S2 | apply r_chain | apply r_open_begin | apply r_open_end | apply r_middle
          | (rb; eapply r_need; eassumption) | (intros ? ? H; exact H) ].
Qed.
Lemma total_red : Rm (total_mom s) (total_mom s').
Proof.
  unfold total_mom. apply r_msum. eapply F2_map; [|exact H2]. intros a b Hab. apply Hab.
Qed.
End Point.

(* ---- the conversion of a point ---- *)
Lemma need_some {A} (o : option A) x : need_r o = Ok x -> o = Some x.
Proof. destruct o; cbn; congruence. Qed.
Lemma conv2_red v w : conv2 f v = Ok w -> Rv v w.
Proof.
  unfold conv2, red_v. destruct (f (e0 v)) eqn:A; cbn; [|discriminate]. destruct (f (e1 v)) eqn:B; cbn; [|discriminate].
  intros E; inversion E; subst; cbn. split; first [assumption|reflexivity].
Qed.
Lemma conv2_of v w : Rv v w -> conv2 f v = Ok w.
Proof. destruct w as [a b]; unfold conv2, red_v; cbn. intros [-> ->]. reflexivity. Qed.
(* the particle with two given spinors *)
Definition spinning (r l : v2 L) (sp : option bool) : particle L :=
  let p := new_spinors r l in mkP (r_u p) (r_d p) (l_u p) (l_d p) (r2 p) (r2b p) (fm p) (fmd p) sp.
Lemma convert_eq p r l r' l' : r_d p = Some r -> l_d p = Some l -> conv2 f r = Ok r' -> conv2 f l = Ok l' ->
  convert f p = Ok (spinning r' l' (spin p)).
Proof.
  intros Hr Hl Cr Cl. unfold convert. rewrite Hl. cbn [need_r rbind]. rewrite Cl. cbn [rbind]. rewrite Hr. cbn [need_r rbind].
  rewrite Cr. cbn [rbind].
  cbv beta iota delta [bind l_sp_d_to_l_sp_u get need ret modify]. cbn [l_d set_lu]. rewrite LC_vmT.
  rewrite (assign_r_sp_d_eq r' _ l') by reflexivity.
  unfold spinning, new_spinors. rewrite new_spinors_eq. reflexivity.
Qed.
Lemma convert_inv p q : convert f p = Ok q -> exists r l r' l',
  r_d p = Some r /\ l_d p = Some l /\ conv2 f r = Ok r' /\ conv2 f l = Ok l' /\ q = spinning r' l' (spin p).
Proof.
  intros H. pose proof H as H0. unfold convert in H.
  destruct (l_d p) as [l|] eqn:Hl; cbn [need_r rbind] in H; [|discriminate].
  destruct (conv2 f l) as [l'|] eqn:Cl; cbn [rbind] in H; [|discriminate].
  destruct (r_d p) as [r|] eqn:Hr; cbn [need_r rbind] in H; [|discriminate].
  destruct (conv2 f r) as [r'|] eqn:Cr; cbn [rbind] in H; [|discriminate].
  rewrite (convert_eq p r l r' l' Hr Hl Cr Cl) in H0. inversion H0.
  exists r, l, r', l'. auto 10.
Qed.
Lemma spinning_fresh r l sp : fresh (spinning r l sp) /\ r_d (spinning r l sp) = Some r /\ l_d (spinning r l sp) = Some l.
Proof.
  destruct (new_spinors_good r l) as (C & R & Hr & Hl & Z). unfold spinning. cbn zeta.
  split; [|split; [exact Hr|exact Hl]]. split; [|split].
  - destruct C as [C1 C2 C3 C4]. constructor; [exact C1|exact C2|exact C3|exact C4].
  - exact R.
  - exact Z.
Qed.
Lemma convert_Rp p q : reproduces p -> convert f p = Ok q -> Rp p q.
Proof.
  intros (r0 & l0 & Hr0 & Hl0 & Hb & H2 & Hru & Hlu) H. apply convert_inv in H as (r & l & r' & l' & Hr & Hl & Cr & Cl & ->).
  rewrite Hr0 in Hr. rewrite Hl0 in Hl. inversion Hr; inversion Hl; subst r0 l0.
  apply conv2_red in Cr, Cl. unfold Rp, spinning, new_spinors. rewrite new_spinors_eq. cbn [fst r_u r_d l_u l_d r2 r2b].
  rewrite Hru, Hlu, Hr0, Hl0, Hb, H2. cbn [Ro]. repeat split; try (apply r_outer || apply r_raise); auto using r_raise;
    try apply r_outer; try apply Cr; try apply Cl; try apply r_raise; auto.
Qed.
Lemma convert_spinors p q : convert f p = Ok q -> fresh q /\ red_spinors f p q.
Proof.
  intros H. apply convert_inv in H as (r & l & r' & l' & Hr & Hl & Cr & Cl & ->).
  destruct (spinning_fresh r' l' (spin p)) as (F & Hr' & Hl'). split; [exact F|].
  exists r, l, r', l'. apply conv2_red in Cr, Cl. auto 10.
Qed.
Lemma convertible_ok p : convertible f p <-> exists q, convert f p = Ok q.
Proof.
  split.
  - intros (r & l & Hr & Hl & [a A] & [b B] & [c C] & [d D]).
    exists (spinning (V2 a b) (V2 c d) (spin p)). apply (convert_eq p r l); auto; apply conv2_of; split; assumption.
  - intros [q H]. apply convert_inv in H as (r & l & r' & l' & Hr & Hl & Cr & Cl & _).
    apply conv2_red in Cr as [? ?], Cl as [? ?]. exists r, l. eauto 10.
Qed.
Lemma rmapM_F2 {A B} (g : A -> result B) l l' : rmapM g l = Ok l' <-> Forall2 (fun a b => g a = Ok b) l l'.
Proof.
  revert l'. induction l as [|a l IH]; intros l'; cbn.
  - split; [intros H; inversion H; constructor|intros H; inversion H; reflexivity].
  - split.
    + destruct (g a) eqn:G; [|discriminate]. destruct (rmapM g l) eqn:M; [|discriminate].
      intros H; inversion H; subst. constructor; [exact G|]. apply IH; reflexivity.
    + intros H; inversion H as [|? b ? l0 G M]; subst. rewrite G. apply IH in M. rewrite M. reflexivity.
Qed.
Lemma F2_impl {A B} (R Q : A -> B -> Prop) l l' : (forall a b, R a b -> Q a b) -> Forall2 R l l' -> Forall2 Q l l'.
Proof. intros F. induction 1; constructor; auto. Qed.
Lemma F2_impl_l {A B} (S : A -> Prop) (R Q : A -> B -> Prop) l l' : (forall a b, S a -> R a b -> Q a b) -> Forall S l -> Forall2 R l l' -> Forall2 Q l l'.
Proof. intros F FS H. induction H; constructor; inversion FS; auto. Qed.
Lemma all_ok s : Forall (convertible f) s <-> exists s', convert_all f s = Ok s'.
Proof.
  split.
  - intros H. induction H as [|p s Hp H [s' IH]]; [exists []; reflexivity|].
    apply convertible_ok in Hp as [q Hq]. exists (q :: s'). unfold convert_all in *. cbn. rewrite Hq, IH. reflexivity.
  - intros [s' H]. apply rmapM_F2 in H. induction H; constructor; auto. apply convertible_ok. eauto.
Qed.
Lemma all_spinors s s' : convert_all f s = Ok s' -> Forall fresh s' /\ Forall2 (red_spinors f) s s'.
Proof.
  intros H. apply rmapM_F2 in H. split.
  - induction H; constructor; auto. eapply convert_spinors; eassumption.
  - eapply F2_impl; [|exact H]. intros a b G. apply convert_spinors, G.
Qed.
Lemma all_Rp s s' : Forall (fun p => reproduces p) s -> convert_all f s = Ok s' -> Forall2 Rp s s'.
Proof.
  intros R H. apply rmapM_F2 in H. eapply F2_impl_l; [|exact R|exact H]. intros a b; apply convert_Rp.
Qed.
Lemma all_compute s s' e : Forall (fun p => reproduces p) s -> convert_all f s = Ok s' ->
  red_result (red_val f) (compute s e) (compute s' e).
Proof. intros R H. apply compute_red, all_Rp; assumption. Qed.
Lemma all_total s s' : Forall (fun p => reproduces p) s -> convert_all f s = Ok s' -> total_mom s = mzero -> total_mom s' = mzero.
Proof.
  intros R H T. pose proof (total_red s s' (all_Rp s s' R H)) as G. rewrite T in G. destruct G as (A & B & C & D).
  cbn [mzero m00 m01 m10 m11] in A, B, C, D. rewrite p_0 in A, B, C, D. destruct (total_mom s'); cbn in A, B, C, D.
  unfold mzero. inversion A; inversion B; inversion C; inversion D. reflexivity.
Qed.

(* ---- expressions ---- *)
Lemma r_kz z : kz z ~> kz z.
Proof.
  assert (Q : forall p, gen_phiPOS1 (f1 (f := K)) fadd fmul p ~> gen_phiPOS1 (f1 (f := L)) fadd fmul p).
  { induction p; cbn; pp. }
  assert (Q' : forall p, gen_phiPOS (f1 (f := K)) fadd fmul p ~> gen_phiPOS (f1 (f := L)) fadd fmul p).
  { induction p as [p|p|]; cbn; [destruct p| destruct p|]; cbn in *; pp. }
  unfold kz. destruct z; cbn; [apply p_0|apply Q'|apply (pl_opp f P), Q'].
Qed.
Lemma r_kpow x y n : x ~> y -> kpow x n ~> kpow y n.
Proof. intros H. induction n; cbn; pp. Qed.
Lemma feqb_false (x y : L) : feqb x y = false -> x <> y.
Proof. apply feqb_neq. Qed.
Lemma r_divE x y a b : x ~> a -> y ~> b -> red_upto (fun x y => x ~> y) (divE x y) (divE a b).
Proof.
  intros H G. unfold divE. destruct (feqb b 0) eqn:Z; [left; reflexivity|].
  apply feqb_neq in Z. pose proof (p_zero_inv y b G Z) as N. apply feqb_neq in N. rewrite N.
  right. cbn. apply p_div; assumption.
Qed.
Notation Rn := (red_num f).
Lemma r_to_K v w : Rn v w -> red_upto (fun x y => x ~> y) (to_K v) (to_K w).
Proof.
  destruct v, w; cbn; try contradiction.
  - intros ->. right; apply r_kz.
  - intros ->. apply r_divE; [apply r_kz|exact (r_kz (Zpos _))].
  - intros H; right; exact H.
  - intros _; right; reflexivity.
Qed.
Lemma r_lift2 fz fq fk fz' fq' fk' v w v' w' :
  (forall a b, red_upto Rn (fz a b) (fz' a b)) -> (forall a b, red_upto Rn (fq a b) (fq' a b)) ->
  (forall x y a b, x ~> a -> y ~> b -> red_upto (fun x y => x ~> y) (fk x y) (fk' a b)) ->
  Rn v v' -> Rn w w' -> red_upto Rn (lift2 fz fq fk v w) (lift2 fz' fq' fk' v' w').
Proof.
  intros Hz Hq Hk Hv Hw.
  assert (Q : to_Q v = to_Q v') by (destruct v, v'; cbn in *; try contradiction; congruence).
  assert (Q' : to_Q w = to_Q w') by (destruct w, w'; cbn in *; try contradiction; congruence).
  pose proof (r_to_K v v' Hv) as T. pose proof (r_to_K w w' Hw) as T'.
  destruct v as [z|q|x|], v' as [z'|q'|x'|]; cbn in Hv; try contradiction;
  destruct w as [y|p|u|], w' as [y'|p'|u'|]; cbn in Hw; try contradiction;
  cbn [lift2]; try (right; exact I);
  try (subst; first [apply Hz|rewrite Q, Q' in *; apply Hq|apply Hq]);
  try (eapply upto_bind; [eassumption|]; intros; eapply upto_rmap; [apply Hk; eassumption|cbn; auto]).
Qed.
Lemma r_add v w v' w' : Rn v v' -> Rn w w' -> red_upto Rn (v_add v w) (v_add v' w').
Proof. apply r_lift2; intros; right; cbn; auto. apply (pl_add f P); assumption. Qed.
Lemma r_sub v w v' w' : Rn v v' -> Rn w w' -> red_upto Rn (v_sub v w) (v_sub v' w').
Proof. apply r_lift2; intros; right; cbn; auto. apply p_sub; assumption. Qed.
Lemma r_mul v w v' w' : Rn v v' -> Rn w w' -> red_upto Rn (v_mul v w) (v_mul v' w').
Proof. apply r_lift2; intros; right; cbn; auto. apply (pl_mul f P); assumption. Qed.
Lemma r_div v w v' w' : Rn v v' -> Rn w w' -> red_upto Rn (v_div v w) (v_div v' w').
Proof.
  apply r_lift2.
  - intros a b. right. destruct (b =? 0)%Z; cbn; auto.
  - intros a b. right. destruct (Qeq_bool b 0); cbn; auto.
  - intros. apply r_divE; assumption.
Qed.
Lemma r_neg v v' : Rn v v' -> Rn (v_neg v) (v_neg v').
Proof. destruct v, v'; cbn; try contradiction; try (intros ->; reflexivity); auto. apply (pl_opp f P). Qed.
Lemma r_k_pow x y n : x ~> y -> red_upto (fun x y => x ~> y) (k_pow x n) (k_pow y n).
Proof.
  intros H. unfold k_pow. destruct (n <? 0)%Z; [apply r_divE; [apply (pl_1 f P)|apply r_kpow, H]|right; apply r_kpow, H].
Qed.
Lemma r_pow v w v' w' : Rn v v' -> Rn w w' -> red_upto Rn (v_pow v w) (v_pow v' w').
Proof.
  intros Hv Hw.
  destruct v as [z|q|x|], v' as [z'|q'|x'|]; cbn in Hv; try contradiction;
  destruct w as [y|p|u|], w' as [y'|p'|u'|]; cbn in Hw; try contradiction; subst; cbn [v_pow]; try (right; cbn; auto; fail).
  - destruct (_ <? 0)%Z; [|right; cbn; auto]. destruct (_ =? 0)%Z; right; cbn; auto.
  - destruct (_ && _)%bool; right; cbn; auto.
  - eapply upto_rmap; [apply r_k_pow; eassumption|cbn; auto].
Qed.
Lemma r_eval oPs oPs' : (forall t, red_upto (fun x y => x ~> y) (oPs t) (oPs' t)) ->
  forall a, red_upto Rn (eval_node oPs a) (eval_node oPs' a).
Proof.
  intros H. induction a; cbn [eval_node];
    try (eapply upto_bind; [eassumption|]; intros; eapply upto_bind; [eassumption|]; intros;
         first [apply r_add|apply r_sub|apply r_mul|apply r_div|apply r_pow]; assumption).
  - right; cbn; auto.
  - eapply upto_rmap; [eassumption|apply r_neg].
  - assumption.
  - eapply upto_rmap; [apply H|cbn; auto].
  - destruct (d =? 0)%Z; right; cbn; auto.
Qed.
Lemma r_dict A B t : red_masses f A B -> Ro (red_mass f) (dict_get t A) (dict_get t B).
Proof.
  intros H. induction H as [|[k x] [k' y] A B [E M] H IH]; cbn in *; [exact I|]. subst k'.
  destruct (str_eqb t k); [exact M|exact IH].
Qed.
Lemma text_red s s' A B : Forall2 Rp s s' -> red_masses f A B -> forall n t,
  red_upto (red_answer f) (compute_text n s A t) (compute_text n s' B t).
Proof.
  intros H M. induction n as [|n IH]; intros t; cbn [compute_text]; [right; reflexivity|].
  destruct (unbold t) as [t'|e]; cbn [rbind]; [|right; reflexivity].
  destruct (classify t') as [e|x| |].
  - right. eapply red_rmap; [apply compute_red, H|cbn; auto].
  - right; reflexivity.
  - pose proof (r_dict A B t' M) as D. destruct (dict_get t' A) as [[x|u]|], (dict_get t' B) as [[y|w]|]; cbn in D; try contradiction.
    + right; exact D.
    + subst. apply IH.
    + right; reflexivity.
  - eapply upto_rmap; [|intros a b Hab; exact Hab]. unfold py_eval.
    destruct (ast_parse (py_parse t)) as [a|e]; cbn [rbind]; [|right; reflexivity].
    apply r_eval. intros u. destruct (IH u) as [E|E]; [left; rewrite E; reflexivity|].
    destruct (compute_text n s A u) as [[[x|x|x|x]|[x|x|x|]]|e], (compute_text n s' B u) as [[[y|y|y|y]|[y|y|y|]]|e']; cbn in E; try contradiction;
      right; cbn; auto.
Qed.
Lemma all_text s s' A B n t : Forall (fun p => reproduces p) s -> convert_all f s = Ok s' -> red_masses f A B ->
  red_upto (red_answer f) (compute_text n s A t) (compute_text n s' B t).
Proof. intros R H M. apply text_red; [apply all_Rp; assumption|exact M]. Qed.
End Thm.

(* there and back *)
Lemma round_trip {K L : Fld} (f : K -> result L) (g : L -> result K) (s : ps L) :
  (forall a, exists x, g a = Ok x /\ f x = Ok a) -> Forall fresh s ->
  exists s1, convert_all g s = Ok s1 /\ exists s2, convert_all f s1 = Ok s2 /\
    Forall2 (fun p q => r_d q = r_d p /\ l_d q = l_d p /\ r_u q = r_u p /\ l_u q = l_u p /\ r2 q = r2 p /\ r2b q = r2b p /\
                        fm q = fm p /\ fmd q = fmd p /\ spin q = spin p) s s2.
Proof.
  intros G H. induction H as [|p s Hp H (s1 & E1 & s2 & E2 & F)].
  - exists []; split; [reflexivity|]. exists []; split; [reflexivity|constructor].
  - destruct Hp as (C & (r & l & Hr & Hl & Hb & H2 & Hru & Hlu) & _).
    destruct r as [ra rb], l as [la lb].
    destruct (G ra) as (xa & A1 & A2), (G rb) as (xb & B1 & B2), (G la) as (ya & C1 & C2), (G lb) as (yb & D1 & D2).
    assert (E : convert g p = Ok (spinning (V2 xa xb) (V2 ya yb) (spin p))).
    { apply (convert_eq g p (V2 ra rb) (V2 la lb)); auto; unfold conv2; cbn; [rewrite A1, B1|rewrite C1, D1]; reflexivity. }
    destruct (spinning_fresh (V2 xa xb) (V2 ya yb) (spin p)) as (_ & Fr & Fl).
    assert (E' : convert f (spinning (V2 xa xb) (V2 ya yb) (spin p)) = Ok (spinning (V2 ra rb) (V2 la lb) (spin p))).
    { rewrite (convert_eq f _ (V2 xa xb) (V2 ya yb) (V2 ra rb) (V2 la lb)); auto; unfold conv2; cbn; [rewrite A2, B2|rewrite C2, D2]; reflexivity. }
    exists (spinning (V2 xa xb) (V2 ya yb) (spin p) :: s1). split; [unfold convert_all in *; cbn; rewrite E, E1; reflexivity|].
    exists (spinning (V2 ra rb) (V2 la lb) (spin p) :: s2). split; [unfold convert_all in *; cbn; rewrite E', E2; reflexivity|].
    constructor; [|exact F].
    destruct (spinning_fresh (V2 ra rb) (V2 la lb) (spin p)) as ((C' & (r' & l' & Hr' & Hl' & Hb' & H2' & Hru' & Hlu') & _) & Sr & Sl).
    rewrite Sr in Hr'; inversion Hr'; subst r'. rewrite Sl in Hl'; inversion Hl'; subst l'.
    pose proof (cons_fm _ C) as M. pose proof (cons_fm _ C') as M'.
    assert (E2b : r2 (spinning (V2 ra rb) (V2 la lb) (spin p)) = r2 p) by congruence.
    split; [congruence|]. split; [congruence|]. split; [congruence|]. split; [congruence|]. split; [congruence|]. split; [congruence|].
    set (q := spinning (V2 ra rb) (V2 la lb) (spin p)) in *.
    assert (Fm : fm q = fm p /\ fmd q = fmd p).
    { destruct (fm p) as [v|], (fm q) as [w|].
      - destruct M as [Md (i & Hi & S1 & S2)], M' as [Md' (i' & Hi' & S1' & S2')].
        assert (i' = i) by congruence; subst i'.
        assert (EE : w = v) by (rewrite <- (vec_slash_up i w Hi), <- (vec_slash_up i v Hi); congruence). subst w. split; congruence.
      - destruct M as [_ (i & Hi & _)], M' as [_ N]. congruence.
      - destruct M' as [_ (i & Hi & _)], M as [_ N]. congruence.
      - destruct M, M'. split; congruence. }
    destruct Fm. repeat split; assumption.
Qed.
