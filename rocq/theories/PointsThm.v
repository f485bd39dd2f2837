(* != and hash of points. *)
From Coq Require Import List ZArith Bool Lia Arith.
From Verif Require Import Base Fld Particle ParticleSpec ParticleThm Index IndexThm Phase PhaseSpec Points.
Import ListNotations.

Section Thm.
Context {K : Fld}.
Open Scope fld_scope.
Implicit Types s t : ps K.
Lemma p_eqb_iff (p q : particle K) : p_eqb p q = true <-> r2 p = r2 q.
Proof. apply meqb_ok. Qed.
Lemma pairs_iff s : forall s', length s = length s' -> (pairs_ne s s' = false <-> Forall2 (fun p q => r2 p = r2 q) s s').
Proof.
  induction s as [|p s IH]; intros [|q s'] L; try discriminate; cbn [pairs_ne].
  - split; [constructor|reflexivity].
  - injection L as L. destruct (p_eqb p q) eqn:E.
    + apply p_eqb_iff in E. rewrite (IH s' L). split; [constructor; assumption|intros H; inversion H; assumption].
    + split; [discriminate|]. intros H. inversion H as [|? ? ? ? R _]; subst. apply p_eqb_iff in R. congruence.
Qed.
Lemma F2_length {A B} (R : A -> B -> Prop) l l' : Forall2 R l l' -> length l = length l'.
Proof. induction 1; cbn; congruence. Qed.
Lemma ne_iff s s' : ps_ne s s' = true <-> ~ Forall2 (fun p q => r2 p = r2 q) s s'.
Proof.
  unfold ps_ne. destruct (Nat.eqb_spec (length s) (length s')) as [L|L]; cbn [negb].
  - rewrite <- (pairs_iff s s' L). destruct (pairs_ne s s'); split; congruence.
  - split; [|reflexivity]. intros _ H. apply L. eapply F2_length; exact H.
Qed.
Lemma ne_eq s : forall s', length s = length s' -> seq_eq p_eqb s s' = Ok (negb (ps_ne s s')).
Proof.
  unfold ps_ne. intros s' L. rewrite (proj2 (Nat.eqb_eq _ _) L). cbn [negb]. revert s' L.
  induction s as [|p s IH]; intros [|q s'] L; try discriminate; cbn [seq_eq pairs_ne]; [reflexivity|].
  injection L as L. destruct (p_eqb p q) eqn:E; [apply IH, L|reflexivity].
Qed.
Lemma hash_mom (p q : particle K) h : fresh p -> fresh q -> leg_hash p = Ok h -> leg_hash q = Ok h -> r2 p = r2 q.
Proof.
  intros (_ & (r & l & Hr & Hl & _ & H2 & _) & Z) (_ & (r' & l' & Hr' & Hl' & _ & H2' & _) & Z').
  unfold leg_hash, p_hash. rewrite Z, Z', feqb_refl, Hr, Hl, Hr', Hl'. intros E E'. inversion E. subst h. inversion E'. congruence.
Qed.
Lemma hash_fresh (p : particle K) : fresh p -> exists r l, r_d p = Some r /\ l_d p = Some l /\ leg_hash p = Ok (HSpinors r l).
Proof.
  intros (_ & (r & l & Hr & Hl & _) & Z). exists r, l. split; [exact Hr|]. split; [exact Hl|].
  unfold leg_hash, p_hash. rewrite Z, feqb_refl, Hr, Hl. reflexivity.
Qed.
Lemma hash_points s s' : Forall (fun p => fresh p) s -> Forall (fun p => fresh p) s' -> ps_hash s = ps_hash s' -> ps_ne s s' = false.
Proof.
  intros F F' E. destruct (ps_ne s s') eqn:N; [|reflexivity]. exfalso. apply ne_iff in N. apply N. clear N. revert s' F' E.
  induction F as [|p s Fp F IH]; intros s' F' E.
  - inversion F' as [|q t Fq]; subst; [constructor|]. exfalso. unfold ps_hash in E. cbn in E. destruct (hash_fresh q Fq) as (r & l & _ & _ & Q). rewrite Q in E. destruct (rmapM leg_hash t); discriminate.
  - unfold ps_hash in *. cbn [rmapM] in E. destruct (hash_fresh p Fp) as (r & l & _ & _ & Q). rewrite Q in E.
    assert (T : forall u : ps K, Forall (fun p => fresh p) u -> exists h, rmapM leg_hash u = Ok h).
    { induction 1 as [|x u Fx Fu [h Hu]]; [exists []; reflexivity|]. destruct (hash_fresh x Fx) as (a & b & _ & _ & X). cbn [rmapM]. rewrite X, Hu. eauto. }
    destruct (T s F) as (h & Hs). rewrite Hs in E.
    inversion F' as [|q t Fq Ft]; subst; [discriminate E|]. cbn [rmapM] in E. destruct (hash_fresh q Fq) as (r' & l' & _ & _ & Q'). rewrite Q' in E.
    destruct (T t Ft) as (h' & Ht). rewrite Ht in E. inversion E; subst.
    constructor; [eapply hash_mom; eassumption|]. apply IH; [exact Ft|congruence].
Qed.
Lemma hash_same s s' : Forall (fun p => fresh p) s -> Forall2 (fun p q => r_d p = r_d q /\ l_d p = l_d q /\ lsq q = 0) s s' ->
  exists h, ps_hash s = Ok h /\ ps_hash s' = Ok h.
Proof.
  intros F H. induction H as [|p q s s' (R & L & Z) H IH]; [exists []; split; reflexivity|].
  inversion F as [|? ? Fp Fs]; subst. destruct (IH Fs) as (h & A & B). unfold ps_hash in *. cbn [rmapM].
  destruct (hash_fresh p Fp) as (r & l & Hr & Hl & Q). assert (Q' : leg_hash q = Ok (HSpinors r l)).
  { unfold leg_hash, p_hash. rewrite Z, feqb_refl, <- R, <- L, Hr, Hl. reflexivity. }
  rewrite Q, Q', A, B. eauto.
Qed.
Lemma hash_raises s : (exists h, ps_hash s = Ok h) \/ ps_hash s = Err AttributeError /\ exists p, In p s /\ lsq p = f0 /\ (r_d p = None \/ l_d p = None).
Proof.
  induction s as [|p s IH]; [left; eexists; reflexivity|]. unfold ps_hash in *. cbn [rmapM]. unfold leg_hash at 1 3, p_hash. destruct (feqb (lsq p) f0) eqn:Z.
  - apply feqb_ok in Z. destruct (r_d p) eqn:R, (l_d p) eqn:L.
    + destruct IH as [(h & ->)|(-> & q & I & H)]; [left; eexists; reflexivity|right]. split; [reflexivity|]. exists q. split; [right; exact I|exact H].
    + right. split; [reflexivity|]. exists p. split; [left; reflexivity|]. split; [exact Z|]. right. exact L.
    + right. split; [reflexivity|]. exists p. split; [left; reflexivity|]. split; [exact Z|]. left. exact R.
    + right. split; [reflexivity|]. exists p. split; [left; reflexivity|]. split; [exact Z|]. left. exact R.
  - destruct IH as [(h & ->)|(-> & q & I & H)]; [left; eexists; reflexivity|right]. split; [reflexivity|]. exists q. split; [right; exact I|exact H].
Qed.
Lemma hash_err s p : In p s -> lsq p = f0 -> r_d p = None \/ l_d p = None -> ps_hash s = Err AttributeError.
Proof.
  intros I Z H. destruct (hash_raises s) as [(h & E)|(E & _)]; [|exact E]. exfalso. revert h E. induction s as [|q s IH]; intros h E; [destruct I|]. unfold ps_hash in *. cbn [rmapM] in E. destruct I as [->|I].
  - unfold leg_hash, p_hash in E. rewrite Z, feqb_refl in E. destruct H as [H|H]; rewrite H in E; [discriminate E|]. destruct (r_d p); discriminate E.
  - destruct (leg_hash q); [|discriminate E]. destruct (rmapM leg_hash s); [|discriminate E]. exact (IH I _ eq_refl).
Qed.
End Thm.
