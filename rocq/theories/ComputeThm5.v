(* Relabelling and change of number field: C15, C33. *)
From Coq Require Import List ZArith Bool Lia Ring Field Permutation.
From Verif Require Import Base Fld Particle ParticleSpec ParticleThm Index IndexThm Phase PhaseSpec PhaseThm Det Arcs Compute ComputeSpec ComputeThm ComputeThm2 ComputeThm3 ComputeThm4.
Import ListNotations.

Section Relabel.
Context {K : Fld}.
Variables (s s' : ps K) (f : Z -> Z).
Hypothesis H : forall k, getitem s' (f k) = getitem s k.

Lemma rl_mom b k : mom b s' (f k) = mom b s k. Proof. unfold mom. rewrite H. reflexivity. Qed.
Lemma rl_rest b l : forall acc, entry_rest b s' acc (map (fun x => (fst x, f (snd x))) l) = entry_rest b s acc l.
Proof.
  induction l as [|[sg k] l IH]; intros acc; cbn; [reflexivity|]. rewrite rl_mom. destruct (mom b s k); cbn; auto.
Qed.
Lemma rl_entry b e : entry_val b s' (emap f e) = entry_val b s e.
Proof. unfold entry_val, emap. cbn. rewrite rl_mom. destruct (mom b s (fst e)); cbn; [apply rl_rest|reflexivity]. Qed.
Lemma rl_mid es : forall b acc, mid_rest b s' acc (map (emap f) es) = mid_rest b s acc es.
Proof.
  induction es as [|e es IH]; intros b acc; cbn; [reflexivity|]. rewrite rl_entry. destruct (entry_val b s e); cbn; auto.
Qed.
Lemma rl_middle b es : middle b s' (map (emap f) es) = middle b s es.
Proof. destruct es as [|e es]; cbn; [reflexivity|]. rewrite rl_entry. destruct (entry_val b s e); cbn; [apply rl_mid|reflexivity]. Qed.
Lemma rl_momsum b l : mom_sum b s' (map f l) = mom_sum b s l.
Proof.
  destruct l as [|k l]; [reflexivity|]. unfold mom_sum. cbn [map]. change (f k :: map f l) with (map f (k :: l)).
  rewrite rmapM_map, (rmapM_ext _ (mom b s)); [reflexivity|]. intros; apply rl_mom.
Qed.
Lemma rl_S l : c_S s' (map f l) = c_S s l. Proof. unfold c_S. rewrite rl_momsum. reflexivity. Qed.
Lemma rl_chain o a es d c : c_chain s' o (f a) (map (emap f) es) (f d) c = c_chain s o a es d c.
Proof. unfold c_chain. rewrite map_length, !H, !rl_middle. reflexivity. Qed.
Lemma rl_delta cs : c_delta s' (map (map f) cs) = c_delta s cs.
Proof.
  unfold c_delta. rewrite !rmapM_map, map_length.
  rewrite (rmapM_ext (fun x => mom_sum false s' (map f x)) (mom_sum false s)) by (intros; apply rl_momsum).
  rewrite (rmapM_ext (fun x => mom_sum true s' (map f x)) (mom_sum true s)) by (intros; apply rl_momsum).
  reflexivity.
Qed.
Lemma rl_tr5 a b c d : (forall k, (0 <= f k <= 9)%Z <-> (0 <= k <= 9)%Z) ->
  c_tr5 s' (emap f a) (emap f b) (emap f c) (emap f d) = c_tr5 s a b c d.
Proof.
  intros F. assert (O : forall e, one_char (emap f e) = one_char e).
  { intros [k l]. unfold one_char, emap. cbn. destruct l; cbn; [|reflexivity]. specialize (F k).
    destruct (Z.leb_spec 0 (f k)), (Z.leb_spec (f k) 9), (Z.leb_spec 0 k), (Z.leb_spec k 9); cbn; auto; lia. }
  unfold c_tr5. cbn [tr5_rotate]. rewrite !O.
  destruct (one_char a); [|destruct (one_char b); [|destruct (one_char c); [|destruct (one_char d)]]]; cbn [rbind]; try reflexivity.
  all: change (fst (emap f a)) with (f (fst a)) || change (fst (emap f b)) with (f (fst b)) || change (fst (emap f c)) with (f (fst c)) || change (fst (emap f d)) with (f (fst d)).
  - rewrite !(rl_chain _ (fst a) [b; c; d] (fst a)). reflexivity.
  - change (fst (emap f b)) with (f (fst b)). rewrite !(rl_chain _ (fst b) [c; d; a] (fst b)). reflexivity.
  - change (fst (emap f c)) with (f (fst c)). rewrite !(rl_chain _ (fst c) [d; a; b] (fst c)). reflexivity.
  - change (fst (emap f d)) with (f (fst d)). rewrite !(rl_chain _ (fst d) [a; b; c] (fst d)). reflexivity.
Qed.
Lemma relabel_compute e : labelled e -> (forall k, (0 <= f k <= 9)%Z <-> (0 <= k <= 9)%Z) ->
  compute s' (relabel f e) = compute s e.
Proof.
  intros L F. destruct e; cbn [labelled relabel compute] in *; try contradiction.
  - rewrite rl_tr5 by exact F. reflexivity.
  - unfold c_tr. rewrite rl_middle. reflexivity.
  - rewrite rl_delta. reflexivity.
  - change [f i] with (map f [i]). rewrite rl_S. reflexivity.
  - rewrite rl_S. reflexivity.
  - unfold c_A2. rewrite !H. reflexivity.
  - rewrite H. reflexivity.
  - rewrite H. reflexivity.
  - unfold c_S2. rewrite !H. reflexivity.
  - rewrite H. reflexivity.
  - rewrite H. reflexivity.
  - rewrite rl_chain. reflexivity.
  - unfold c_open_begin. rewrite map_length, rl_middle, H. reflexivity.
  - unfold c_open_end. rewrite !rl_middle, H. reflexivity.
  - rewrite rl_middle. reflexivity.
Qed.
End Relabel.

Lemma F2_length {A B} (P : A -> B -> Prop) l l' : Forall2 P l l' -> length l = length l'.
Proof. induction 1; cbn; congruence. Qed.
Section Sub.
Context {K : Fld}.
Add Field Kc5 : (fth K).
Lemma sub_0_l (x : K) : (0 - x)%fld = (- x)%fld.
Proof. ring. Qed.
End Sub.
Section Rel.
Context {K K' : Fld} (R : K -> K' -> Prop).
Hypothesis RR : ring_rel K K' R.
Variables (s : ps K) (s' : ps K').
Hypothesis RS : Forall2 (prel R) s s'.
Notation v2R := (v2rel R). Notation m2R := (m2rel R).

Lemma rr_opp x x' : R x x' -> R (- x)%fld (- x')%fld.
Proof.
  intros Hx. pose proof (rr_sub _ _ _ RR _ _ _ _ (rr_0 _ _ _ RR) Hx) as E.
  assert (E1 : (0 - x)%fld = (- x)%fld) by apply sub_0_l. assert (E2 : (0 - x')%fld = (- x')%fld) by apply sub_0_l.
  rewrite <- E1, <- E2. exact E.
Qed.
Ltac rr := repeat (first [assumption | apply (rr_add _ _ _ RR) | apply (rr_mul _ _ _ RR) | apply (rr_sub _ _ _ RR)
   | apply rr_opp | apply (rr_0 _ _ _ RR) | apply (rr_1 _ _ _ RR) | apply (rr_half _ _ _ RR)]).
Ltac rel := unfold v2rel, m2rel in *; repeat match goal with H : _ /\ _ |- _ => destruct H end; cbn; repeat split; rr.
Lemma rel_madd m n m' n' : m2R m m' -> m2R n n' -> m2R (madd m n) (madd m' n'). Proof. intros; rel. Qed.
Lemma rel_msub m n m' n' : m2R m m' -> m2R n n' -> m2R (msub m n) (msub m' n'). Proof. intros; rel. Qed.
Lemma rel_mmul m n m' n' : m2R m m' -> m2R n n' -> m2R (mmul m n) (mmul m' n'). Proof. intros; rel. Qed.
Lemma rel_mzero : m2R mzero mzero. Proof. rel. Qed.
Lemma rel_vm v m v' m' : v2R v v' -> m2R m m' -> v2R (vm v m) (vm v' m'). Proof. intros; rel. Qed.
Lemma rel_mv v m v' m' : v2R v v' -> m2R m m' -> v2R (mv m v) (mv m' v'). Proof. intros; rel. Qed.
Lemma rel_vdot v w v' w' : v2R v v' -> v2R w w' -> R (vdot v w) (vdot v' w'). Proof. intros; unfold vdot; rel. Qed.
Lemma rel_mtr m m' : m2R m m' -> R (mtr m) (mtr m'). Proof. intros; unfold mtr; rel. Qed.
Lemma rel_bind {A B A' B'} (P : A -> A' -> Prop) (Q : B -> B' -> Prop) r r' f f' :
  rrel P r r' -> (forall a a', P a a' -> rrel Q (f a) (f' a')) -> rrel Q (rbind r f) (rbind r' f').
Proof. destruct r, r'; cbn; intros Hr Hf; try contradiction; auto. Qed.
Lemma rel_rmap {A B A' B'} (P : A -> A' -> Prop) (Q : B -> B' -> Prop) r r' f f' :
  rrel P r r' -> (forall a a', P a a' -> Q (f a) (f' a')) -> rrel Q (rmap f r) (rmap f' r').
Proof. destruct r, r'; cbn; intros Hr Hf; try contradiction; auto. Qed.
Lemma rel_get k : rrel (prel R) (getitem s k) (getitem s' k).
Proof.
  unfold getitem, zlen. rewrite <- (F2_length _ _ _ RS). destruct (rebase (Z.of_nat (length s)) k) as [j|]; cbn; [|reflexivity].
  unfold list_get. generalize (Z.to_nat j) as n. clear j k. induction RS as [|p p' l l' Hp Hl IH]; intros [|n]; cbn; auto.
Qed.
Lemma rel_need {A B} (P : A -> B -> Prop) o o' : orel P o o' -> rrel P (need_r o) (need_r o').
Proof. destruct o, o'; cbn; auto. Qed.
Lemma rel_mom b k : rrel m2R (mom b s k) (mom b s' k).
Proof. unfold mom. eapply rel_rmap; [apply rel_get|]. intros p p' Hp. destruct b; apply Hp. Qed.
Lemma rel_rest b l : forall acc acc', m2R acc acc' -> rrel m2R (entry_rest b s acc l) (entry_rest b s' acc' l).
Proof.
  induction l as [|[sg k] l IH]; intros acc acc' Ha; cbn; [exact Ha|]. eapply rel_bind; [apply rel_mom|].
  intros m m' Hm. apply IH. destruct sg; [apply rel_madd|apply rel_msub]; assumption.
Qed.
Lemma rel_entry b e : rrel m2R (entry_val b s e) (entry_val b s' e).
Proof. unfold entry_val. eapply rel_bind; [apply rel_mom|]. intros m m' Hm. apply rel_rest, Hm. Qed.
Lemma rel_mid es : forall b acc acc', m2R acc acc' -> rrel m2R (mid_rest b s acc es) (mid_rest b s' acc' es).
Proof.
  induction es as [|e es IH]; intros b acc acc' Ha; cbn; [exact Ha|]. eapply rel_bind; [apply rel_entry|].
  intros m m' Hm. apply IH, rel_mmul; assumption.
Qed.
Lemma rel_middle b es : rrel m2R (middle b s es) (middle b s' es).
Proof.
  destruct es as [|e es]; cbn; [reflexivity|]. eapply rel_bind; [apply rel_entry|]. intros m m' Hm. apply rel_mid, Hm.
Qed.
Lemma rel_rmapM {A B B'} (P : B -> B' -> Prop) (f : A -> result B) (f' : A -> result B') l :
  (forall x, rrel P (f x) (f' x)) -> rrel (Forall2 P) (rmapM f l) (rmapM f' l).
Proof.
  intros Hf. induction l as [|x l IH]; cbn; [constructor|]. specialize (Hf x). destruct (f x), (f' x); cbn in *; try contradiction; auto.
  destruct (rmapM f l), (rmapM f' l); cbn in *; try contradiction; auto.
Qed.
Lemma rel_msum ms ms' : Forall2 m2R ms ms' -> m2R (msum ms) (msum ms').
Proof. unfold msum. induction 1; cbn; [apply rel_mzero|]. apply rel_madd; assumption. Qed.
Lemma rel_momsum b l : rrel m2R (mom_sum b s l) (mom_sum b s' l).
Proof.
  destruct l as [|k l]; [reflexivity|]. unfold mom_sum. eapply rel_bind; [apply (rel_rmapM m2R), rel_mom|].
  intros ms ms' Hm. apply rel_msum, Hm.
Qed.
Lemma rel_lsum {A} (g : A -> K) (g' : A -> K') l : (forall x, R (g x) (g' x)) -> R (lsum g l) (lsum g' l).
Proof.
  intros Hg. unfold lsum. generalize (rr_0 _ _ _ RR). generalize (0 : K)%fld. generalize (0 : K')%fld.
  induction l as [|x l IH]; intros a' a Ha; cbn; [exact Ha|]. apply IH. rr. apply Hg.
Qed.
Lemma rel_alt n : R (alt n) (alt n). Proof. unfold alt. destruct (Nat.even n); rr. Qed.
Lemma rel_det n : forall (m : mat K) (m' : mat K'), (forall i j, R (m i j) (m' i j)) -> R (det n m) (det n m').
Proof.
  induction n as [|n IH]; intros m m' Hm; [apply (rr_0 _ _ _ RR)|]. destruct n as [|n]; [apply Hm|].
  rewrite !det_SS. apply rel_lsum. intros c. rr; [apply rel_alt|apply Hm|]. apply IH. intros i j. apply Hm.
Qed.
Lemma rel_det2 m m' : m2R m m' -> R (det2 m) (det2 m').
Proof. intros Hm. apply rel_det. destruct Hm as (? & ? & ? & ?). intros [|i] [|j]; cbn; assumption. Qed.
Lemma rel_S l : rrel R (c_S s l) (c_S s' l).
Proof. unfold c_S. eapply rel_bind; [apply rel_momsum|]. intros m m' Hm. apply rel_det2, Hm. Qed.
Lemma rel_nth l l' i : Forall2 m2R l l' -> m2R (nth i l mzero) (nth i l' mzero).
Proof. intros Hl; revert i; induction Hl; intros [|i]; cbn; auto using rel_mzero. Qed.
Lemma rel_len_arcs ijk : arcs (S (length s')) (zlen s') ijk = arcs (S (length s)) (zlen s) ijk.
Proof. unfold zlen. rewrite (F2_length _ _ _ RS). reflexivity. Qed.
Lemma rel_row o p p' : prel R p p' -> orel v2R (orow o p) (orow o p').
Proof. intros Hp. destruct o; apply Hp. Qed.
Lemma rel_col c p p' : prel R p p' -> orel v2R (ccol c p) (ccol c p').
Proof. intros Hp. destruct c; apply Hp. Qed.
Lemma rel_chain o a es d c : rrel R (c_chain s o a es d c) (c_chain s' o a es d c).
Proof.
  rewrite !chain_unfold. destruct (negb (bracket_ok o (length es) c)); [reflexivity|].
  eapply rel_bind; [apply rel_get|]. intros p p' Hp. eapply (rel_bind v2R).
  - eapply rel_bind; [apply rel_middle|]. intros m m' Hm. eapply rel_bind; [apply rel_need, rel_row, Hp|].
    intros v v' Hv. apply rel_vm; assumption.
  - intros v v' Hv. eapply rel_bind; [apply rel_get|]. intros q q' Hq. eapply rel_bind; [apply rel_need, rel_col, Hq|].
    intros u u' Hu. apply rel_vdot; assumption.
Qed.
Lemma rel_compute e : rrel (vrel R) (compute s e) (compute s' e).
Proof.
  destruct e; cbn [compute].
  - apply (rel_rmap R); [|auto]. unfold c_tr5. destruct (tr5_rotate 4 a b c d) as [[[[a' b'] c'] d']|]; cbn [rbind]; [|reflexivity].
    eapply rel_bind; [apply rel_chain|]. intros x x' Hx. eapply rel_bind; [apply rel_chain|]. intros y y' Hy. cbn. rr.
  - apply (rel_rmap R); [|auto]. unfold c_tr. eapply rel_bind; [apply rel_middle|]. intros m m' Hm. apply rel_mtr, Hm.
  - apply (rel_rmap R); [|auto]. unfold c_Omega. rewrite rel_len_arcs. destruct (arcs _ _ ijk) as [[[l0 l1] l2]|]; cbn [rbind]; [|reflexivity].
    eapply rel_bind; [apply rel_S|]. intros x2 x2' H2. eapply rel_bind; [apply rel_S|]. intros x1 x1' H1.
    eapply rel_bind; [apply rel_S|]. intros x0 x0' H0. apply (rel_bind R).
    + destruct l0; [reflexivity|apply rel_S].
    + intros t t' Ht. cbn. rr.
  - apply (rel_rmap R); [|auto]. unfold c_Pi. rewrite rel_len_arcs. destruct (arcs _ _ ijk) as [[[l0 l1] l2]|]; cbn [rbind]; [|reflexivity].
    destruct l0 as [|x [|y l0]]; [reflexivity..|]. eapply rel_bind; [apply rel_S|]. intros x2 x2' H2.
    eapply rel_bind; [apply rel_S|]. intros x1 x1' H1. cbn. rr.
  - apply (rel_rmap R); [|auto]. unfold c_delta. eapply rel_bind; [apply (rel_rmapM m2R), rel_momsum|]. intros ms ms' Hm.
    eapply rel_bind; [apply (rel_rmapM m2R), rel_momsum|]. intros mb mb' Hb. cbn. apply (rr_mul _ _ _ RR); [apply rel_alt|].
    apply rel_det. intros i j. apply (rr_half _ _ _ RR), rel_mtr, rel_mmul; apply rel_nth; assumption.
  - apply (rel_rmap R); [|auto]. unfold c_delta3. rewrite rel_len_arcs. destruct (arcs _ _ ijk) as [[[l0 l1] l2]|]; cbn [rbind]; [|reflexivity].
    eapply rel_bind; [apply rel_momsum|]. intros m m' Hm. eapply rel_bind; [apply rel_momsum|]. intros n n' Hn. cbn [rrel].
    pose proof (rel_det2 _ _ Hm). pose proof (rel_det2 _ _ Hn).
    assert (R (mtr (mmul m n) / 2) (mtr (mmul m' n') / 2))%fld by (apply (rr_half _ _ _ RR), rel_mtr, rel_mmul; assumption). rr.
  - apply (rel_rmap R); [|auto]. unfold c_delta5.
    eapply rel_bind; [apply rel_S|]; intros a a' Ha. eapply rel_bind; [apply rel_S|]; intros b b' Hb. eapply rel_bind; [apply rel_S|]; intros c c' Hc.
    eapply rel_bind; [apply rel_S|]; intros d d' Hd. eapply rel_bind; [apply rel_S|]; intros e e' He. cbn [rrel]. rr.
  - apply (rel_rmap R); [|auto]. apply rel_S.
  - apply (rel_rmap R); [|auto]. apply rel_S.
  - apply (rel_rmap R); [|auto]. unfold c_A2. eapply rel_bind; [apply rel_get|]. intros p p' Hp. eapply rel_bind; [apply rel_get|]. intros q q' Hq.
    eapply rel_bind; [apply rel_need, Hp|]. intros u u' Hu. eapply rel_bind; [apply rel_need, Hq|]. intros v v' Hv. apply rel_vdot; assumption.
  - apply (rel_rmap v2R); [|auto]. eapply rel_bind; [apply rel_get|]. intros p p' Hp. apply rel_need, Hp.
  - apply (rel_rmap v2R); [|auto]. eapply rel_bind; [apply rel_get|]. intros p p' Hp. apply rel_need, Hp.
  - apply (rel_rmap R); [|auto]. unfold c_S2. eapply rel_bind; [apply rel_get|]. intros p p' Hp. eapply rel_bind; [apply rel_get|]. intros q q' Hq.
    eapply rel_bind; [apply rel_need, Hp|]. intros u u' Hu. eapply rel_bind; [apply rel_need, Hq|]. intros v v' Hv. apply rel_vdot; assumption.
  - apply (rel_rmap v2R); [|auto]. eapply rel_bind; [apply rel_get|]. intros p p' Hp. apply rel_need, Hp.
  - apply (rel_rmap v2R); [|auto]. eapply rel_bind; [apply rel_get|]. intros p p' Hp. apply rel_need, Hp.
  - apply (rel_rmap R); [|auto]. apply rel_chain.
  - apply (rel_rmap v2R); [|auto]. unfold c_open_begin. eapply rel_bind; [apply rel_middle|]. intros m m' Hm.
    eapply rel_bind; [apply rel_get|]. intros p p' Hp. apply (rel_bind v2R); [destruct c; apply rel_need, Hp|].
    intros v v' Hv. apply rel_mv; assumption.
  - apply (rel_rmap v2R); [|auto]. unfold c_open_end. eapply rel_bind; [apply rel_get|]. intros p p' Hp.
    destruct o; (eapply rel_bind; [apply rel_middle|]); intros m m' Hm; (eapply rel_bind; [apply rel_need, Hp|]); intros v v' Hv; apply rel_vm; assumption.
  - apply (rel_rmap m2R); [|auto]. apply rel_middle.
Qed.
End Rel.
