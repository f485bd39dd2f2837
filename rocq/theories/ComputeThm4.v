(* Rescalings, Lorentz transformations of spinors, parity, relabelling: C22, C23, C07, C15. *)
From Coq Require Import List ZArith Bool Lia Ring Field Permutation.
From Verif Require Import Base Fld Particle ParticleSpec ParticleThm Index IndexThm Phase PhaseSpec PhaseThm Det Arcs Compute ComputeSpec ComputeThm ComputeThm2 ComputeThm3.
Import ListNotations.

Section Thm.
Context {K : Fld}.
Open Scope fld_scope.
Add Field Kc4 : (fth K).
Implicit Types (s : ps K) (p q : particle K).

(* ---- C22: one leg rescaled through the setters ---- *)
Lemma rescale_ok s k t p r l : sound s -> getitem s k = Ok p -> r_d p = Some r -> l_d p = Some l -> reproduces p -> t <> 0 ->
  exists s', rescale k t r l s = (s', Ok tt) /\ boosted mone mone (fun j => if Z.eqb j k then t else 1) s s'.
Proof.
  intros S G Hr Hl Rp Nt. pose proof (sound_get s k p S G) as C.
  assert (Hlu : l_u p = Some (raise_r l)) by (rewrite (cons_l _ C), Hl; reflexivity).
  unfold rescale, bind.
  destruct (on_eq k (assign_r_sp_d (vscale t r)) s p G) as (s1 & E1 & W1). rewrite E1.
  rewrite (assign_r_sp_d_eq (vscale t r) p l Hl Hlu) in *. cbn [fst snd] in *.
  match type of W1 with setitem _ _ ?q = _ => set (q1 := q) in * end.
  destruct (setitem_laws s k q1 p G) as (s1' & W1' & G1 & L1 & O1 & _). assert (s1' = s1) by congruence. subst s1'.
  destruct (on_eq k (assign_l_sp_d (vscale (1 / t) l)) s1 q1 G1) as (s2 & E2 & W2). rewrite E2.
  rewrite (assign_l_sp_d_eq (vscale (1 / t) l) q1 (vscale t r)) in * by reflexivity. cbn [fst snd] in *.
  match type of W2 with setitem _ _ ?q = _ => set (q2 := q) in * end.
  destruct (setitem_laws s1 k q2 q1 G1) as (s2' & W2' & G2 & L2 & O2 & _). assert (s2' = s2) by congruence. subst s2'.
  exists s2. split; [reflexivity|].
  assert (Cq2 : consistent q2).
  { unfold q2. rewrite (outer_adj (vscale t r)). apply consistent_mk; reflexivity. }
  assert (Oth : forall j, j <> k -> getitem s2 j = getitem s j).
  { intros j Nj. rewrite O2, O1 by exact Nj. reflexivity. }
  constructor.
  - exact S.
  - apply Forall_getitem. intros j x Gj. destruct (Z.eq_dec j k) as [->|Nj].
    + assert (x = q2) by congruence. subst. exact Cq2.
    + rewrite Oth in Gj by exact Nj. apply (sound_get s j x S Gj).
  - unfold_vec; ring.
  - unfold_vec; ring.
  - intros j. destruct (j =? k)%Z; [exact Nt|]. apply f1_nz.
  - congruence.
  - intros j x x' Gj Gj'. destruct (Z.eqb_spec j k) as [->|Nj].
    + assert (x = p) by congruence. assert (x' = q2) by congruence. subst x x'. unfold q2. constructor; cbn.
      * rewrite Hr. cbn. f_equal. rewrite mv_one. reflexivity.
      * rewrite Hl. cbn. f_equal. rewrite vm_one. reflexivity.
      * rewrite mmul_1_l, mmul_1_r. destruct Rp as (r' & l' & Hr' & Hl' & Eb & _).
        assert (r' = r) by congruence. assert (l' = l) by congruence. subst.
        rewrite Eb. unfold_vec. apply m2_ext; cbn; field; exact Nt.
    + rewrite Oth in Gj' by exact Nj. assert (x' = x) by congruence. subst x'. constructor.
      * destruct (r_d x); cbn; [|reflexivity]. f_equal. rewrite mv_one. unfold_vec. apply v2_ext; cbn; ring.
      * destruct (l_d x); cbn; [|reflexivity]. f_equal. rewrite vm_one. unfold_vec. apply v2_ext; cbn; field; apply f1_nz.
      * rewrite mmul_1_l, mmul_1_r. reflexivity.
Qed.
(* ---- C23: a point given by its spinors ---- *)
Lemma new_spinors_cons (r l : v2 K) : consistent (new_spinors r l) /\ reproduces (new_spinors r l).
Proof. pose proof (new_spinors_good r l) as H. cbn in H. tauto. Qed.
Lemma from_spinors_sound (l : list (v2 K * v2 K)) : sound (from_spinors l).
Proof. apply Forall_forall. intros p Hp. apply in_map_iff in Hp as (x & <- & _). apply new_spinors_cons. Qed.
Lemma from_spinors_reproduces (l : list (v2 K * v2 K)) : Forall (fun p => reproduces p) (from_spinors l).
Proof. apply Forall_forall. intros p Hp. apply in_map_iff in Hp as (x & <- & _). apply new_spinors_cons. Qed.
Lemma getitem_map {X Y} (f : X -> Y) (l : list X) k : getitem (map f l) k = rmap f (getitem l k).
Proof.
  unfold getitem, zlen. rewrite map_length. destruct (rebase (Z.of_nat (length l)) k) as [j|]; cbn; [|reflexivity].
  unfold list_get. rewrite nth_error_map. destruct (nth_error l (Z.to_nat j)); reflexivity.
Qed.
Lemma lorentz_ok (A B : m2 K) l : mdet A = 1 -> mdet B = 1 ->
  boosted A B (fun _ => 1) (from_spinors l) (from_spinors (map (fun x => (mv A (fst x), vm (snd x) B)) l)).
Proof.
  intros HA HB. constructor; auto using from_spinors_sound.
  - intros _. apply f1_nz.
  - unfold from_spinors. rewrite !map_length. reflexivity.
  - intros k p p' G G'. unfold from_spinors in *. rewrite map_map in G'. rewrite getitem_map in G, G'.
    destruct (getitem l k) as [[r t]|]; [|discriminate]. cbn in G, G'. injection G as <-. injection G' as <-.
    pose proof (new_spinors_good r t) as (_ & (r0 & t0 & Hr0 & Ht0 & Eb & _) & Hr & Ht & _). cbn in *.
    pose proof (new_spinors_good (mv A r) (vm t B)) as (_ & (r1 & t1 & Hr1 & Ht1 & Eb1 & _) & Hr' & Ht' & _). cbn in *.
    constructor.
    + rewrite Hr', Hr. cbn. f_equal. unfold_vec. apply v2_ext; cbn; ring.
    + rewrite Ht', Ht. cbn. f_equal. unfold_vec. apply v2_ext; cbn; field; apply f1_nz.
    + rewrite Eb1, Eb. assert (r0 = r) by congruence. assert (t0 = t) by congruence.
      assert (r1 = mv A r) by congruence. assert (t1 = vm t B) by congruence. subst.
      unfold_vec. apply m2_ext; cbn; ring.
Qed.

Lemma lorentz_compute (A B : m2 K) l : mdet A = 1 -> mdet B = 1 -> forall e, closed e ->
  scalar (compute (from_spinors (map (fun x => (mv A (fst x), vm (snd x) B)) l)) e) = scalar (compute (from_spinors l) e).
Proof.
  intros HA HB e Hc. rewrite (boost_compute A B (fun _ => 1) _ _ (lorentz_ok A B l HA HB) e Hc).
  assert (W : weight (fun _ : Z => 1) e = (1 : K)).
  { destruct e; cbn; try reflexivity; try (field; apply f1_nz). destruct (is_ang_o o), (is_ang_c c); cbn; field; apply f1_nz. }
  rewrite W. destruct (scalar (compute (from_spinors l) e)); cbn; [|reflexivity]. f_equal. ring.
Qed.
(* ---- C07 ---- *)
Lemma consistent_spin x p : consistent p -> consistent (with_spin x p).
Proof. intros [H1 H2 H3 H4]. constructor; assumption. Qed.
Lemma flip_plain p : consistent p -> plain p -> let q := fst (angles_for_squares p) in
  r_d q = l_d p /\ l_d q = r_d p /\ r2 q = mT (r2 p) /\ consistent q /\ plain q.
Proof.
  intros C (Sp & [[Hr Hl]|[Hr Hl]]); cbn zeta.
  - pose proof (step_flip p C) as [C' _]. rewrite (angles_for_squares_none p C) in * by auto. cbn [fst] in *.
    cbn [r_d l_d r2]. split; [congruence|]. split; [congruence|]. split; [reflexivity|]. split; [exact C'|].
    split; [exact Sp|]. left. auto.
  - destruct (r_d p) as [r|] eqn:Er; [|congruence]. destruct (l_d p) as [l|] eqn:El; [|congruence].
    pose proof (step_flip p C) as [C' _]. rewrite (angles_for_squares_eq p l r C El Er) in *. cbn [fst] in *.
    rewrite Sp in *. cbn [r_d l_d r2 flip_r flip_l] in *. split; [reflexivity|]. split; [reflexivity|]. split; [reflexivity|]. split; [exact C'|].
    split; [reflexivity|]. right. split; discriminate.
Qed.
Lemma flip_twice p : consistent p -> plain p -> fst (angles_for_squares (fst (angles_for_squares p))) = p.
Proof.
  intros C P. destruct (flip_plain p C P) as (Hr & Hl & H2 & C' & P'). cbn zeta in *.
  destruct (flip_plain _ C' P') as (Hr' & Hl' & H2' & C'' & P''). cbn zeta in *.
  set (q := fst (angles_for_squares (fst (angles_for_squares p)))) in *.
  assert (Er : r_d q = r_d p) by congruence. assert (El : l_d q = l_d p) by congruence.
  assert (E2 : r2 q = r2 p). { rewrite H2', H2. destruct (r2 p); reflexivity. }
  assert (Fm : fm q = fm p /\ fmd q = fmd p).
  { pose proof (cons_fm _ C) as F. pose proof (cons_fm _ C'') as F'. rewrite E2 in F'.
    destruct (fm p) as [v|]; destruct (fm q) as [v'|].
    - destruct F as (-> & i & Hi & F & _). destruct F' as (-> & i' & Hi' & F' & _).
      assert (i' = i) by congruence. subst i'. assert (v = v').
      { rewrite <- (vec_slash_up i v Hi), <- (vec_slash_up i v' Hi), <- F, <- F'. reflexivity. }
      subst v'. auto.
    - destruct F as (_ & i & Hi & _). destruct F' as (_ & F'). congruence.
    - destruct F as (_ & F). destruct F' as (_ & i & Hi & _). congruence.
    - destruct F as (-> & _). destruct F' as (-> & _). auto. }
  destruct Fm as [Ef Efd].
  pose proof (cons_r _ C'') as Ru. pose proof (cons_l _ C'') as Lu. pose proof (cons_r2b _ C'') as Rb.
  rewrite Er, <- (cons_r _ C) in Ru. rewrite El, <- (cons_l _ C) in Lu. rewrite E2, <- (cons_r2b _ C) in Rb.
  destruct P as [Sp _]. destruct P'' as [Sp'' _]. rewrite <- Sp in Sp''.
  destruct p, q; cbn in *; congruence.
Qed.
Lemma ps_flip_twice s : sound s -> Forall plain s -> ps_flip (ps_flip s) = s.
Proof.
  intros S P. unfold ps_flip. rewrite map_map. rewrite <- (map_id s) at 2. apply map_ext_in. intros p Hp.
  apply flip_twice; [apply (proj1 (Forall_forall _ _) S p Hp)|apply (proj1 (Forall_forall _ _) P p Hp)].
Qed.
Section Flip.
Variable s : ps K.
Hypothesis S : sound s.
Hypothesis P : Forall plain s.
Lemma flip_get k : (exists p, getitem s k = Ok p /\ getitem (ps_flip s) k = Ok (fst (angles_for_squares p)) /\ consistent p /\ plain p)
  \/ (exists e, getitem s k = Err e /\ getitem (ps_flip s) k = Err e).
Proof.
  unfold ps_flip. rewrite getitem_map. destruct (getitem s k) as [p|e] eqn:G; [|right; exists e; auto].
  left. exists p. repeat split; auto; try apply (sound_get s k p S G); apply (proj1 (Forall_getitem _ _) P k p G).
Qed.
Lemma flip_sound : sound (ps_flip s).
Proof.
  apply Forall_forall. intros q Hq. apply in_map_iff in Hq as (p & <- & Hp).
  apply step_flip, (proj1 (Forall_forall _ _) S p Hp).
Qed.
Lemma flip_plains : Forall plain (ps_flip s).
Proof.
  apply Forall_forall. intros q Hq. apply in_map_iff in Hq as (p & <- & Hp).
  apply flip_plain; [apply (proj1 (Forall_forall _ _) S p Hp)|apply (proj1 (Forall_forall _ _) P p Hp)].
Qed.
Lemma flip_mom b k : mom b (ps_flip s) k = rmap mT (mom b s k).
Proof.
  unfold mom. destruct (flip_get k) as [(p & -> & -> & C & Pp)|(e & -> & ->)]; [|reflexivity]. cbn [rmap].
  destruct (flip_plain p C Pp) as (_ & _ & H2 & C' & _). cbn zeta in *. f_equal.
  destruct b; [|exact H2]. rewrite (cons_r2b _ C'), (cons_r2b _ C), H2. reflexivity.
Qed.
Lemma mT_add (m m' : m2 K) : mT (madd m m') = madd (mT m) (mT m'). Proof. reflexivity. Qed.
Lemma mT_sub (m m' : m2 K) : mT (msub m m') = msub (mT m) (mT m'). Proof. reflexivity. Qed.
Lemma mT_det (m : m2 K) : mdet (mT m) = mdet m. Proof. unfold_vec; ring. Qed.
Lemma mT_tr (m m' : m2 K) : mtr (mmul (mT m) (mT m')) = mtr (mmul m m'). Proof. unfold_vec; ring. Qed.
Lemma flip_len : length (ps_flip s) = length s. Proof. apply map_length. Qed.
Lemma flip_entry e : entry_val false (ps_flip s) e = rmap mT (entry_val false s e).
Proof. apply (lin_entry s (ps_flip s) (fun _ => mT) flip_mom (fun _ => mT_add) (fun _ => mT_sub)). Qed.
Lemma flip_entries es : rmapM (entry_val false (ps_flip s)) es = rmap (map mT) (rmapM (entry_val false s) es).
Proof.
  rewrite (rmapM_ext _ (fun e => rmap mT (entry_val false s e))) by (intros; apply flip_entry).
  apply (rmapM_rmap (entry_val false s) mT).
Qed.
Lemma flip_S l : c_S (ps_flip s) l = c_S s l.
Proof. apply (lin_S s (ps_flip s) (fun _ => mT) flip_mom (fun _ => mT_add) (fun _ => eq_refl) mT_det). Qed.
Lemma flip_A2' a b x : c_S2 s b a = Ok x -> c_A2 (ps_flip s) a b = Ok x.
Proof.
  intros H. apply S2_inv in H as (pb & pa & lb & la & Gb & Ga & Hb & Ha & ->); [|exact S].
  destruct (flip_get a) as [(p & Gp & Ga' & C & Pp)|(e & E & _)]; [|congruence]. assert (p = pa) by congruence. subst p.
  destruct (flip_get b) as [(p & Gp' & Gb' & C' & Pp')|(e & E & _)]; [|congruence]. assert (p = pb) by congruence. subst p.
  destruct (flip_plain pa C Pp) as (Hra & _). destruct (flip_plain pb C' Pp') as (Hrb & _). cbn zeta in *.
  rewrite (A2_make (ps_flip s) a b _ _ la lb flip_sound Ga' Gb'); [|congruence..]. f_equal. unfold_vec; unfold raise_r; cbn. ring.
Qed.
Lemma flip_S2' a b x : c_A2 s b a = Ok x -> c_S2 (ps_flip s) a b = Ok x.
Proof.
  intros H. apply A2_inv in H as (pb & pa & lb & la & Gb & Ga & Hb & Ha & ->); [|exact S].
  destruct (flip_get a) as [(p & Gp & Ga' & C & Pp)|(e & E & _)]; [|congruence]. assert (p = pa) by congruence. subst p.
  destruct (flip_get b) as [(p & Gp' & Gb' & C' & Pp')|(e & E & _)]; [|congruence]. assert (p = pb) by congruence. subst p.
  destruct (flip_plain pa C Pp) as (_ & Hra & _). destruct (flip_plain pb C' Pp') as (_ & Hrb & _). cbn zeta in *.
  rewrite (S2_make (ps_flip s) a b _ _ la lb flip_sound Ga' Gb'); [|congruence..]. f_equal. unfold_vec; unfold raise_r; cbn. ring.
Qed.
Lemma flip_chain o a es d c x : o <> OLt -> c = end_of o (length es) -> es <> [] ->
  c_chain s (swap_o (open_of c)) d (rev es) a (swap_c (close_of o)) = Ok x ->
  c_chain (ps_flip s) o a es d c = Ok x.
Proof.
  intros No Ec N H.
  assert (Nr : rev es <> []). { intros E. apply N. rewrite <- (rev_involutive es), E. reflexivity. }
  apply chain_inv in H as (O & pd & pa & ms & row & col & Gd & Ga & Hm & Hr & Hc & ->); [|auto using sound_barred..].
  apply rmapM_rev in Hm. rewrite rev_involutive in Hm. pose proof (rmapM_length _ _ _ Hm) as L.
  destruct (flip_get a) as [(p & Gp & Ga' & C & Pp)|(e & E & _)]; [|congruence]. assert (p = pa) by congruence. subst p.
  destruct (flip_get d) as [(p & Gp' & Gd' & C' & Pp')|(e & E & _)]; [|congruence]. assert (p = pd) by congruence. subst p.
  destruct (flip_plain pa C Pp) as (Hra & Hla & _ & Cfa & _). destruct (flip_plain pd C' Pp') as (Hrd & Hld & _ & Cfd & _). cbn zeta in *.
  assert (Hrow : orow o (fst (angles_for_squares pa)) = Some col).
  { destruct o; try congruence; cbn in *.
    - rewrite (cons_r _ Cfa), Hra. rewrite (cons_l _ C) in Hc. exact Hc.
    - congruence. }
  assert (Hcol : ccol c (fst (angles_for_squares pd)) = Some row).
  { subst c. unfold end_of in *. destruct o; try congruence; destruct (Nat.even (length es)); cbn in *; try congruence;
    rewrite (cons_l _ Cfd), Hld; rewrite (cons_r _ C') in Hr; exact Hr. }
  rewrite (chain_make (ps_flip s) o a es d c (fst (angles_for_squares pa)) (fst (angles_for_squares pd)) (map mT (rev ms)) col row); auto using sound_barred, flip_sound.
  - f_equal. rewrite rev_length in L.
    assert (E : mprod (oflag o) (map mT (rev ms)) = mT (mprod (oflag (swap_o (open_of c))) ms)).
    { rewrite mprod_mT, map_rev. f_equal. subst c. unfold end_of, flip_by. rewrite L.
      destruct o; try congruence; destruct (Nat.even (length es)); reflexivity. }
    rewrite E. rewrite vm_mT, vdot_comm, <- vdot_vm. reflexivity.
  - subst c. unfold end_of, bracket_ok. destruct o; try congruence; destruct (Nat.even (length es)); reflexivity.
  - rewrite flip_entries, Hm. reflexivity.
Qed.
Lemma swap_fix o (a : Z) (es : list entry) (d : Z) c : o <> OLt -> c = end_of o (length es) -> es <> [] ->
  swap_o (open_of c) <> OLt /\ swap_c (close_of o) = end_of (swap_o (open_of c)) (length (rev es)) /\ rev es <> [] /\
  swap_o (open_of (swap_c (close_of o))) = o /\ swap_c (close_of (swap_o (open_of c))) = c /\ a = a /\ d = d.
Proof.
  intros No -> N. rewrite rev_length. unfold end_of.
  assert (Nr : rev es <> []). { intros E. apply N. rewrite <- (rev_involutive es), E. reflexivity. }
  destruct o; try congruence; destruct (Nat.even (length es)); cbn; repeat split; auto; discriminate.
Qed.
End Flip.

Lemma scalar_VS (r : result K) : scalar (rmap VS r) = r. Proof. destruct r; reflexivity. Qed.
Lemma flip_fwd s e x : sound s -> Forall plain s -> flippable e -> scalar (compute s (flip_str e)) = Ok x ->
  scalar (compute (ps_flip s) e) = Ok x.
Proof.
  intros S P F. destruct e; cbn [flippable flip_str compute] in *; try contradiction; rewrite ?scalar_VS; intros H.
  - rewrite (lin_Omega s (ps_flip s) (fun _ => mT) (flip_mom s S P) (fun _ => mT_add) (fun _ => eq_refl) mT_det (flip_len s)). exact H.
  - rewrite (lin_Pi s (ps_flip s) (fun _ => mT) (flip_mom s S P) (fun _ => mT_add) (fun _ => eq_refl) mT_det (flip_len s)). exact H.
  - rewrite (lin_delta s (ps_flip s) (fun _ => mT) (flip_mom s S P) (fun _ => mT_add) (fun _ => eq_refl) mT_tr). exact H.
  - rewrite (lin_delta3 s (ps_flip s) (fun _ => mT) (flip_mom s S P) (fun _ => mT_add) (fun _ => eq_refl) mT_det mT_tr (flip_len s) ijk mT_det). exact H.
  - rewrite (lin_delta5 s (ps_flip s) (fun _ => mT) (flip_mom s S P) (fun _ => mT_add) (fun _ => eq_refl) mT_det). exact H.
  - rewrite flip_S by assumption. exact H.
  - rewrite flip_S by assumption. exact H.
  - apply flip_A2'; assumption.
  - apply flip_S2'; assumption.
  - destruct F as (No & Ec & N). apply flip_chain; assumption.
Qed.
Lemma flip_compute s e x : sound s -> Forall plain s -> flippable e ->
  (scalar (compute (ps_flip s) e) = Ok x <-> scalar (compute s (flip_str e)) = Ok x).
Proof.
  intros S P F. split; [|apply flip_fwd; assumption].
  intros H. rewrite <- (ps_flip_twice s S P).
  apply flip_fwd; [apply flip_sound; assumption|apply flip_plains; assumption| |].
  - destruct e; cbn in *; auto. destruct F as (No & Ec & N). destruct (swap_fix o a es d c No Ec N) as (A1 & A2 & A3 & _). auto.
  - destruct e; cbn [flip_str] in *; auto. cbn in F. destruct F as (No & Ec & N).
    destruct (swap_fix o a es d c No Ec N) as (_ & _ & _ & E1 & E2 & _). rewrite E1, E2, rev_involutive. exact H.
Qed.
Lemma flip_tr5 s a b c d A B C D : sound s -> Forall plain s ->
  entry_val false s a = Ok A -> entry_val false s b = Ok B -> entry_val false s c = Ok C -> entry_val false s d = Ok D ->
  (forall k, In (leg k) [a; b; c; d] -> massless_leg s k) -> (exists k, In (leg k) [a; b; c; d] /\ (1 <= k <= 9)%Z) ->
  exists x, c_tr5 s a b c d = Ok x /\ c_tr5 (ps_flip s) a b c d = Ok (- x).
Proof.
  intros S P Ha Hb Hc Hd M (k0 & I0 & Hk0).
  pose proof (tr5_value s a b c d A B C D S Ha Hb Hc Hd) as V.
  pose proof (tr5_value (ps_flip s) a b c d (mT A) (mT B) (mT C) (mT D) (flip_sound s S)) as V'.
  rewrite !(flip_entry s S P), Ha, Hb, Hc, Hd in V'. cbn [rmap] in V'.
  specialize (V' eq_refl eq_refl eq_refl eq_refl).
  assert (ET : T5 (mT A) (mT B) (mT C) (mT D) = - T5 A B C D) by (unfold T5, adj; unfold_vec; ring).
  assert (Hx : exists k sg, sgn_rot a b c d = Some (k, sg) /\ In (leg k) [a; b; c; d]).
  { unfold sgn_rot.
    destruct (one_char a) eqn:Oa; [rewrite (one_char_inv a Oa); do 2 eexists; cbn; eauto|].
    destruct (one_char b) eqn:Ob; [rewrite (one_char_inv b Ob); do 2 eexists; cbn; eauto|].
    destruct (one_char c) eqn:Oc; [rewrite (one_char_inv c Oc); do 2 eexists; cbn; eauto|].
    destruct (one_char d) eqn:Od; [rewrite (one_char_inv d Od); do 2 eexists; cbn; eauto 6|].
    exfalso. pose proof (one_char_leg k0 Hk0) as O.
    destruct I0 as [E|[E|[E|[E|[]]]]]; rewrite <- E in O; congruence. }
  destruct Hx as (k & sg & E & I). rewrite E in V, V'.
  assert (M' : massless_leg (ps_flip s) k).
  { destruct (M k I) as (p & Gp & (r & l & Hr & Hl & Eb & E2 & Hru & Hlu)).
    destruct (flip_get s S P k) as [(p' & Gp' & Gf & Cp & Pp)|(e & Ee & _)]; [|congruence]. assert (p' = p) by congruence. subst p'.
    exists (fst (angles_for_squares p)). split; [exact Gf|].
    destruct (flip_plain p Cp Pp) as (Hra & Hla & H2 & C' & _). cbn zeta in *.
    exists l, r. rewrite Hra, Hla, (cons_r _ C'), (cons_l _ C'), (cons_r2b _ C'), Hra, Hla, H2, E2, Hr, Hl. cbn.
    repeat split; unfold raise_r, adj; unfold_vec; apply m2_ext; cbn; ring. }
  exists (if sg then T5 A B C D else - T5 A B C D). split; [apply V, M, I|].
  rewrite (V' M'). rewrite ET. destruct sg; reflexivity.
Qed.
Lemma flip_total s : sound s -> Forall plain s -> total_mom (ps_flip s) = mT (total_mom s).
Proof.
  intros S P. unfold total_mom, ps_flip. rewrite map_map.
  unfold msum. induction s as [|p s IH]; cbn [map fold_right]; [reflexivity|]. rewrite IH.
  - rewrite mT_add. f_equal. apply flip_plain; [apply (Forall_inv S)|apply (Forall_inv P)].
  - apply (Forall_inv_tail S).
  - apply (Forall_inv_tail P).
Qed.
Lemma flip_lsq p : consistent p -> plain p -> lsq (fst (angles_for_squares p)) = lsq p.
Proof.
  intros C P. destruct (flip_plain p C P) as (_ & _ & H2 & C' & _). cbn zeta in *.
  rewrite (lsq_det _ (cons_r2b _ C)), (lsq_det _ (cons_r2b _ C')), H2. apply mT_det.
Qed.

End Thm.
