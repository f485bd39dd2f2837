(* Proofs about SetOne.v, second part: two-brackets, chains and Mandelstam variables. *)
From Coq Require Import List ZArith Bool Lia Ring Field Permutation.
From Verif Require Import Base Fld Particle ParticleSpec ParticleThm Index IndexThm Phase PhaseSpec PhaseThm
  Arcs ArcsThm Compute ComputeSpec ComputeThm ComputeThm2 ComputeThm3 GramThm SetOne SetSpec SetThm.
Import ListNotations.

Section Bind.
Context {S A B : Type}.
Implicit Types (f : A -> M S B).
Lemma bind_ok (m : M S A) f s s' a : m s = (s', Ok a) -> bind m f s = f a s'.
Proof. intros E. unfold bind. rewrite E. reflexivity. Qed.
Lemma bind_err (m : M S A) f s s' e : m s = (s', Err e) -> bind m f s = (s', Err e).
Proof. intros E. unfold bind. rewrite E. reflexivity. Qed.
Lemma bind_lift f s r a : r = Ok a -> bind (lift r) f s = f a s.
Proof. intros ->. reflexivity. Qed.
Lemma bind_lift_err f s r e : r = Err e -> bind (lift r) f s = (s, Err e).
Proof. intros ->. reflexivity. Qed.
Lemma bind_inv (m : M S A) f s s' b : bind m f s = (s', Ok b) -> exists s1 a, m s = (s1, Ok a) /\ f a s1 = (s', Ok b).
Proof. unfold bind. destruct (m s) as [s1 [a|e]]; intros H; [eauto|discriminate]. Qed.
Lemma bind_lift_inv f s s' r b : bind (lift r) f s = (s', Ok b) -> exists a, r = Ok a /\ f a s = (s', Ok b).
Proof. unfold bind, lift. destruct r as [a|e]; intros H; [eauto|discriminate]. Qed.
End Bind.
Lemma bind_get {S B} (f : S -> M S B) s : bind get f s = f s s.
Proof. reflexivity. Qed.

Section Two.
Context {K : Fld}.
Open Scope fld_scope.
Add Field Kset2 : (fth K).
Implicit Types (s : ps K) (r l : Z -> v2 K) (u v w : v2 K) (k : Z) (X : K).

Lemma bind_at {B} k (f : particle K -> QM B) s p : getitem s k = Ok p -> bind (at_ k) f s = f p s.
Proof. intros E. unfold bind, at_. rewrite E. reflexivity. Qed.
Lemma bind_needo {A B} (o : option A) (f : A -> QM B) s a : o = Some a -> bind (needo (K := K) o) f s = f a s.
Proof. intros ->. reflexivity. Qed.
Lemma divE_ok (x y : K) : y <> 0 -> divE x y = Ok (x / y).
Proof. intros H. unfold divE. destruct (feqb y 0) eqn:E; [|reflexivity]. apply feqb_ok in E. contradiction. Qed.
Lemma divE_0 (x y : K) : y = 0 -> divE x y = Err ZeroDivisionError.
Proof. intros ->. unfold divE. replace (feqb 0 (0 : K)) with true; [reflexivity|]. symmetry. apply feqb_ok. reflexivity. Qed.
Lemma divE_inv (x y z : K) : divE x y = Ok z -> y <> 0 /\ z = x / y.
Proof.
  unfold divE. destruct (feqb y 0) eqn:E; [discriminate|]. intros H. split; [|congruence].
  intros Y. apply feqb_ok in Y. congruence.
Qed.
Lemma feq_dec (x : K) : {x = 0} + {x <> 0}.
Proof. destruct (feqb x 0) eqn:E; [left; apply feqb_ok, E|right]. intros H. apply feqb_ok in H. congruence. Qed.
Lemma lin_solve (x b d a : K) : a <> 0 -> a * ((x - b * d) / a) + b * d = x.
Proof. intros H. field. exact H. Qed.
Lemma lin_solve' (x b d a : K) : a <> 0 -> (x - b * d) / a * a + b * d = x.
Proof. intros H. field. exact H. Qed.

(* the checks of _set *)
Lemma checks_ok s : total_mom s = mzero -> Forall (fun p => fresh p) s -> mom_cons_check s = true /\ onshell_check s = true.
Proof.
  intros T F. unfold mom_cons_check, onshell_check. split.
  - rewrite T. unfold meqb. cbn. assert (E : feqb (0:K) 0 = true) by (apply feqb_ok; reflexivity). rewrite E. reflexivity.
  - apply forallb_forall. intros p Hp. rewrite Forall_forall in F. destruct (F p Hp) as (_ & _ & Z). rewrite Z. apply feqb_ok. reflexivity.
Qed.
Lemma checks_inv s : mom_cons_check s = true -> onshell_check s = true -> total_mom s = mzero /\ Forall (fun p => lsq p = 0) s.
Proof.
  intros C O. split.
  - unfold mom_cons_check, meqb in C. rewrite !andb_true_iff in C. destruct C as [[[C1 C2] C3] C4].
    apply feqb_ok in C1, C2, C3, C4. destruct (total_mom s); cbn in *. unfold mzero. congruence.
  - unfold onshell_check in O. rewrite forallb_forall in O. apply Forall_forall. intros p Hp. apply feqb_ok, O, Hp.
Qed.
Lemma set_returns cv so t X mode s s' : set_inner cv so t X true mode s = (s', Ok tt) ->
  c_target s' t = Ok X -> total_mom s' = mzero -> Forall (fun p => fresh p) s' ->
  set_ cv so t X true mode s = (s', Ok tt).
Proof.
  intros E V T F. destruct (checks_ok s' T F) as [C O]. unfold set_, set_checked.
  rewrite (bind_ok _ _ _ _ _ E), bind_get, (bind_lift _ _ _ _ V). rewrite C, O. cbn [negb].
  rewrite (bind_ok _ _ _ s' tt) by reflexivity.
  replace (feqb X X) with true; [reflexivity|]. symmetry. apply feqb_ok. reflexivity.
Qed.
Lemma set_err cv so t X fx mode s s' e : set_inner cv so t X fx mode s = (s', Err e) ->
  set_ cv so t X fx mode s = (s', Err e).
Proof. intros E. unfold set_, set_checked. rewrite (bind_err _ _ _ _ _ E). reflexivity. Qed.
(* what a return of _set means, whatever the solver did *)
Lemma set_checked_inv (inner : QM unit) (value : ps K -> result K) X fx s s' : set_checked inner value X fx s = (s', Ok tt) ->
  inner s = (s', Ok tt) /\ value s' = Ok X /\ (fx = true -> total_mom s' = mzero /\ Forall (fun p => lsq p = 0) s').
Proof.
  unfold set_checked. intros H.
  apply bind_inv in H as (s1 & [] & E1 & H). rewrite bind_get in H.
  apply bind_lift_inv in H as (x & Ex & H).
  apply bind_inv in H as (s2 & [] & E2 & H).
  assert (s2 = s1 /\ (fx = true -> mom_cons_check s1 = true /\ onshell_check s1 = true)) as [-> C].
  { destruct fx; [|inversion E2; split; [reflexivity|discriminate]].
    destruct (mom_cons_check s1); [|discriminate]. destruct (onshell_check s1); [|discriminate].
    inversion E2. auto. }
  destruct (feqb x X) eqn:Q; [|discriminate]. apply feqb_ok in Q. subst x. inversion H; subst s'.
  split; [exact E1|]. split; [exact Ex|]. intros F. destruct (C F). apply checks_inv; auto.
Qed.

(* ---- <A|B> and [A|B] ---- *)
Lemma set_A2_view cv so s r l A B X : set_like so -> view s r l -> inr s A -> inr s B -> A <> B ->
  (e1 (r A) = 0 -> forall fx, set_A2 cv so A B X fx s = (s, Err ZeroDivisionError)) /\
  (e1 (r A) <> 0 -> exists s' v, set_A2 cv so A B X false s = (s', Ok tt) /\ view s' (upd r B v) l /\ step s s' [B] /\
     vdot (raise_r (r A)) v = X /\
     set_A2 cv so A B X true s = fix2 cv (free_legs (length s) [A; B]) 2 s').
Proof.
  intros SO V HA HB N.
  destruct (view_get s r l A V HA) as (pA & GA & _ & _ & _ & EA & _).
  destruct (view_get s r l B V HB) as (pB & GB & _ & EB & _).
  assert (H : forall fx, set_A2 cv so A B X fx s =
    bind (lift (divE (X - e1 (raise_r (r A)) * e1 (r B)) (e1 (r A)))) (fun c => bind (on B (assign_r_sp_d (V2 c (e1 (r B))))) (fun _ =>
     if fx then fix2 cv (free_legs (length s) [A; B]) 2 else ret tt)) s).
  { intros fx. unfold set_A2. rewrite bind_get.
    rewrite (bind_lift _ _ _ _ (complementary_free so (length s) [A; B] SO ltac:(discriminate))).
    rewrite (bind_at A _ s pA GA), (bind_needo _ _ _ _ EA), (bind_at B _ s pB GB), (bind_needo _ _ _ _ EB). reflexivity. }
  split.
  - intros Z fx. rewrite H. rewrite (bind_lift_err _ _ _ _ (divE_0 _ _ Z)). reflexivity.
  - intros NZ. set (c := (X - e1 (raise_r (r A)) * e1 (r B)) / e1 (r A)) in *.
    destruct (on_rd s r l B (V2 c (e1 (r B))) V HB) as (s' & E & V' & T).
    exists s', (V2 c (e1 (r B))). split; [|split; [exact V'|split; [exact T|split]]].
    + rewrite H, (bind_lift _ _ _ _ (divE_ok _ _ NZ)). fold c. rewrite (bind_ok _ _ _ _ _ E). reflexivity.
    + unfold c, raise_r. unfold_vec. field. exact NZ.
    + rewrite H, (bind_lift _ _ _ _ (divE_ok _ _ NZ)). fold c. rewrite (bind_ok _ _ _ _ _ E). reflexivity.
Qed.
Lemma set_S2_view cv so s r l A B X : set_like so -> view s r l -> inr s A -> inr s B -> A <> B ->
  (e0 (l A) = 0 -> forall fx, set_S2 cv so A B X fx s = (s, Err ZeroDivisionError)) /\
  (e0 (l A) <> 0 -> exists s' v, set_S2 cv so A B X false s = (s', Ok tt) /\ view s' r (upd l B v) /\ step s s' [B] /\
     vdot (l A) (raise_r v) = X /\
     set_S2 cv so A B X true s = fix2 cv (free_legs (length s) [A; B]) 1 s').
Proof.
  intros SO V HA HB N.
  destruct (view_get s r l A V HA) as (pA & GA & _ & _ & EA & _).
  destruct (view_get s r l B V HB) as (pB & GB & _ & _ & _ & _ & EB & _).
  assert (H : forall fx, set_S2 cv so A B X fx s =
    bind (lift (divE (X - e1 (l A) * e1 (raise_r (l B))) (e0 (l A)))) (fun c => bind (on B (assign_l_sp_u (V2 c (e1 (raise_r (l B)))))) (fun _ =>
     if fx then fix2 cv (free_legs (length s) [A; B]) 1 else ret tt)) s).
  { intros fx. unfold set_S2. rewrite bind_get.
    rewrite (bind_lift _ _ _ _ (complementary_free so (length s) [A; B] SO ltac:(discriminate))).
    rewrite (bind_at A _ s pA GA), (bind_needo _ _ _ _ EA), (bind_at B _ s pB GB), (bind_needo _ _ _ _ EB). reflexivity. }
  split.
  - intros Z fx. rewrite H. rewrite (bind_lift_err _ _ _ _ (divE_0 _ _ Z)). reflexivity.
  - intros NZ. set (c := (X - e1 (l A) * e1 (raise_r (l B))) / e0 (l A)) in *.
    destruct (on_lu s r l B (V2 c (e1 (raise_r (l B)))) V HB) as (s' & E & V' & T).
    exists s', (lower (V2 c (e1 (raise_r (l B))))). split; [|split; [exact V'|split; [exact T|split]]].
    + rewrite H, (bind_lift _ _ _ _ (divE_ok _ _ NZ)). fold c. rewrite (bind_ok _ _ _ _ _ E). reflexivity.
    + rewrite raise_lower'. unfold c, raise_r. unfold_vec. field. exact NZ.
    + rewrite H, (bind_lift _ _ _ _ (divE_ok _ _ NZ)). fold c. rewrite (bind_ok _ _ _ _ _ E). reflexivity.
Qed.

Lemma first_r_view s r l k : view s r l -> inr s k -> first_r s k = Some (e1 (r k)).
Proof.
  intros V H. destruct (view_get s r l k V H) as (p & G & _ & _ & _ & E & _). unfold first_r. rewrite G, E. reflexivity.
Qed.
Lemma first_l_view s r l k : view s r l -> inr s k -> first_l s k = Some (e0 (l k)).
Proof.
  intros V H. destruct (view_get s r l k V H) as (p & G & _ & _ & E & _). unfold first_l. rewrite G, E. reflexivity.
Qed.
Lemma step_made s s' t X T r l : c_target s' t = Ok X -> total_mom s' = mzero -> view s' r l -> step s s' T -> made s s' t X T.
Proof.
  intros C M V [L O]. constructor; auto. apply (view_fresh s' r l V).
Qed.
Lemma inr_step s s' T k : step s s' T -> inr s k -> inr s' k.
Proof. intros [L _] H. unfold inr in *. rewrite L. exact H. Qed.

(* C34 *)
Theorem set_A2_thm cv so s A B X mode p q rest : set_like so -> Forall (fun p => fresh p) s ->
  inr s A -> inr s B -> A <> B -> free_legs (length s) [A; B] = p :: q :: rest ->
  (first_r s A <> Some 0 -> nz (c_A2 s p q) ->
     exists s', set_ cv so (TInv (IA2 A B)) X true mode s = (s', Ok tt) /\
       made s s' (TInv (IA2 A B)) X [B; p; q] /\ keeps_l s s' B /\ keeps_r s s' p /\ keeps_r s s' q) /\
  ((first_r s A = Some 0 \/ c_A2 s p q = Ok 0) -> snd (set_ cv so (TInv (IA2 A B)) X true mode s) = Err ZeroDivisionError).
Proof.
  intros SO F HA HB N FL. pose proof (view_of s F) as V. set (r := rs s) in *. set (l := ls s) in *.
  destruct (free_two _ _ _ _ _ FL) as (Hp & Hq & Npq & Ip & Iq). change (inr s p) in Hp. change (inr s q) in Hq.
  assert (Np : p <> B) by (intros ->; apply Ip; cbn; auto). assert (Nq : q <> B) by (intros ->; apply Iq; cbn; auto).
  rewrite (first_r_view s r l A V HA), (A2_view s r l p q V Hp Hq).
  destruct (set_A2_view cv so s r l A B X SO V HA HB N) as [Z1 Z2]. split.
  - intros NZ (y & Ey & Ny). assert (NZ' : e1 (r A) <> 0) by congruence.
    destruct (Z2 NZ') as (s1 & v & _ & V1 & T1 & EX & E1). rewrite FL in E1. cbn [fix2] in E1.
    destruct (fixm_view cv s1 (upd r B v) l p q 2 V1 (inr_step s s1 [B] p T1 Hp) (inr_step s s1 [B] q T1 Hq) Npq) as [_ FX].
    cbn [Z.eqb Pos.eqb] in FX. rewrite !upd_other in FX by auto.
    destruct FX as (s2 & r2' & l2' & E2 & V2 & T2 & TM & -> & O2); [congruence|].
    rewrite E2 in E1. exists s2.
    assert (VAL : c_target s2 (TInv (IA2 A B)) = Ok X).
    { cbn [c_target compute scalar]. pose proof (fun k => inr_step _ _ _ k T1) as I1. pose proof (fun k => inr_step _ _ _ k T2) as I2.
      rewrite (A2_view s2 _ _ A B V2) by auto. cbn. rewrite (upd_other r B v A) by auto. rewrite upd_same, EX. reflexivity. }
    split; [|split; [|split; [|split]]].
    + apply set_returns; auto. apply (view_fresh _ _ _ V2).
    + apply (step_made _ _ _ _ _ _ _ VAL TM V2). apply (step_trans _ _ _ _ _ T1 T2).
    + apply (view_keeps_l s s2 r l (upd r B v) l2' B V V2). apply O2; auto.
    + apply (view_keeps_r s s2 r l (upd r B v) l2' p V V2). apply upd_other; auto.
    + apply (view_keeps_r s s2 r l (upd r B v) l2' q V V2). apply upd_other; auto.
  - intros [Z|Z].
    + rewrite (set_err cv so _ X true mode s s ZeroDivisionError); [reflexivity|]. cbn [set_inner]. apply Z1. congruence.
    + destruct (feq_dec (e1 (r A))) as [ZA|NZ]; [rewrite (set_err cv so _ X true mode s s ZeroDivisionError); [reflexivity|]; cbn [set_inner]; apply Z1; exact ZA|].
      destruct (Z2 NZ) as (s1 & v & _ & V1 & T1 & EX & E1). rewrite FL in E1. cbn [fix2] in E1.
      destruct (fixm_view cv s1 (upd r B v) l p q 2 V1 (inr_step s s1 [B] p T1 Hp) (inr_step s s1 [B] q T1 Hq) Npq) as [FX _].
      cbn [Z.eqb Pos.eqb] in FX. rewrite !upd_other in FX by auto. rewrite FX in E1 by congruence.
      rewrite (set_err cv so _ X true mode s s1 ZeroDivisionError); [reflexivity|]. exact E1.
Qed.
Theorem set_S2_thm cv so s A B X mode p q rest : set_like so -> Forall (fun p => fresh p) s ->
  inr s A -> inr s B -> A <> B -> free_legs (length s) [A; B] = p :: q :: rest ->
  (first_l s A <> Some 0 -> nz (c_S2 s p q) ->
     exists s', set_ cv so (TInv (IS2 A B)) X true mode s = (s', Ok tt) /\
       made s s' (TInv (IS2 A B)) X [B; p; q] /\ keeps_r s s' B /\ keeps_l s s' p /\ keeps_l s s' q) /\
  ((first_l s A = Some 0 \/ c_S2 s p q = Ok 0) -> snd (set_ cv so (TInv (IS2 A B)) X true mode s) = Err ZeroDivisionError).
Proof.
  intros SO F HA HB N FL. pose proof (view_of s F) as V. set (r := rs s) in *. set (l := ls s) in *.
  destruct (free_two _ _ _ _ _ FL) as (Hp & Hq & Npq & Ip & Iq). change (inr s p) in Hp. change (inr s q) in Hq.
  assert (Np : p <> B) by (intros ->; apply Ip; cbn; auto). assert (Nq : q <> B) by (intros ->; apply Iq; cbn; auto).
  rewrite (first_l_view s r l A V HA), (S2_view s r l p q V Hp Hq).
  destruct (set_S2_view cv so s r l A B X SO V HA HB N) as [Z1 Z2]. split.
  - intros NZ (y & Ey & Ny). assert (NZ' : e0 (l A) <> 0) by congruence.
    destruct (Z2 NZ') as (s1 & v & _ & V1 & T1 & EX & E1). rewrite FL in E1. cbn [fix2] in E1.
    destruct (fixm_view cv s1 r (upd l B v) p q 1 V1 (inr_step s s1 [B] p T1 Hp) (inr_step s s1 [B] q T1 Hq) Npq) as [_ FX].
    cbn [Z.eqb Pos.eqb] in FX. rewrite !upd_other in FX by auto.
    destruct FX as (s2 & r2' & l2' & E2 & V2 & T2 & TM & -> & O2); [congruence|].
    rewrite E2 in E1. exists s2.
    assert (VAL : c_target s2 (TInv (IS2 A B)) = Ok X).
    { cbn [c_target compute scalar]. pose proof (fun k => inr_step _ _ _ k T1) as I1. pose proof (fun k => inr_step _ _ _ k T2) as I2.
      rewrite (S2_view s2 _ _ A B V2) by auto. cbn. rewrite (upd_other l B v A) by auto. rewrite upd_same, EX. reflexivity. }
    split; [|split; [|split; [|split]]].
    + apply set_returns; auto. apply (view_fresh _ _ _ V2).
    + apply (step_made _ _ _ _ _ _ _ VAL TM V2). apply (step_trans _ _ _ _ _ T1 T2).
    + apply (view_keeps_r s s2 r l r2' (upd l B v) B V V2). apply O2; auto.
    + apply (view_keeps_l s s2 r l r2' (upd l B v) p V V2). apply upd_other; auto.
    + apply (view_keeps_l s s2 r l r2' (upd l B v) q V V2). apply upd_other; auto.
  - intros [Z|Z].
    + rewrite (set_err cv so _ X true mode s s ZeroDivisionError); [reflexivity|]. cbn [set_inner]. apply Z1. congruence.
    + destruct (feq_dec (e0 (l A))) as [ZA|NZ]; [rewrite (set_err cv so _ X true mode s s ZeroDivisionError); [reflexivity|]; cbn [set_inner]; apply Z1; exact ZA|].
      destruct (Z2 NZ) as (s1 & v & _ & V1 & T1 & EX & E1). rewrite FL in E1. cbn [fix2] in E1.
      destruct (fixm_view cv s1 r (upd l B v) p q 1 V1 (inr_step s s1 [B] p T1 Hp) (inr_step s s1 [B] q T1 Hq) Npq) as [FX _].
      cbn [Z.eqb Pos.eqb] in FX. rewrite !upd_other in FX by auto. rewrite FX in E1 by congruence.
      rewrite (set_err cv so _ X true mode s s1 ZeroDivisionError); [reflexivity|]. exact E1.
Qed.
End Two.
