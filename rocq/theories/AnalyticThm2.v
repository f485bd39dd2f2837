(* Proofs for C60-C62: points. *)
From Coq Require Import Ascii String.
From Coq Require Import List ZArith Bool Lia Setoid Field.
From Verif Require Import Base Fld Particle ParticleSpec ParticleThm Index IndexThm Phase PhaseThm Compute ComputeSpec ComputeThm ComputeThm5 Symm SymmThm Str Gen GenThm Ideal IdealThm RatPoly RatFun Analytic AnalyticSpec AnalyticThm.
Import ListNotations.
Import Compute.
Open Scope nat_scope.

(* ---- make_analytical_d ---- *)
Section Make.
Context {K : Fld} (m : nat).
Notation L := (tower K m).
Lemma analytical_eq (indep : list bool) i (p : particle K) q : analytical m indep i p = Ok q <->
  exists r l a b c d, r_d p = Some r /\ l_d p = Some l /\
    entry_at m indep (i * 4 + 0) (Ok (e0 r)) = Ok a /\ entry_at m indep (i * 4 + 1) (Ok (e1 r)) = Ok b /\
    entry_at m indep (i * 4 + 2) (Ok (e0 l)) = Ok c /\ entry_at m indep (i * 4 + 3) (Ok (e1 l)) = Ok d /\
    q = built (V2 a b) (V2 c d) (spin p).
Proof.
  unfold analytical.
  assert (E : forall a b c d : L, (bind r_sp_d_to_r_sp_u (fun _ => bind l_sp_d_to_l_sp_u (fun _ => bind r1_sp_to_r2_sp (fun _ => bind r1_sp_to_r2_sp_b (fun _ => four_mom_from_r2b)))))
            (mkP None (Some (V2 a b)) None (Some (V2 c d)) mzero mzero None None (spin p)) = (built (V2 a b) (V2 c d) (spin p), Ok tt)).
  { intros a b c d. unfold built. cbv beta iota delta [bind modify r_sp_d_to_r_sp_u l_sp_d_to_l_sp_u r1_sp_to_r2_sp r1_sp_to_r2_sp_b get need ret].
    cbn [r_d r_u l_u l_d r2 r2b fm fmd spin set_rd set_ru set_ld set_lu set_r2 set_r2b].
    rewrite four_mom_from_r2b_eq. unfold with_fm.
    cbn [r_d r_u l_u l_d r2 r2b fm fmd spin set_rd set_ru set_ld set_lu set_r2 set_r2b set_fm set_fmd].
    rewrite ?LC_mv, ?LC_vmT, ?LC_vm, ?LC_mvT, outer_adj', ?raise_lower. reflexivity. }
  destruct (r_d p) as [r|] eqn:Er; cbn [need_r rmap].
  - destruct (entry_at m indep (i * 4 + 0) (Ok (e0 r))) as [a|] eqn:Ea; cbn [rbind]; [|split; [discriminate|intros (r' & l' & a & b & c & d & X & _ & Y & _); injection X as <-; congruence]].
    destruct (entry_at m indep (i * 4 + 1) (Ok (e1 r))) as [b|] eqn:Eb; cbn [rbind]; [|split; [discriminate|intros (r' & l' & a' & b & c & d & X & _ & _ & Y & _); injection X as <-; congruence]].
    destruct (l_d p) as [l|] eqn:El; cbn [need_r rmap].
    + destruct (entry_at m indep (i * 4 + 2) (Ok (e0 l))) as [c|] eqn:Ec; cbn [rbind]; [|split; [discriminate|intros (r' & l' & a' & b' & c & d & _ & X & _ & _ & Y & _); injection X as <-; congruence]].
      destruct (entry_at m indep (i * 4 + 3) (Ok (e1 l))) as [d|] eqn:Ed; cbn [rbind]; [|split; [discriminate|intros (r' & l' & a' & b' & c' & d & _ & X & _ & _ & _ & Y & _); injection X as <-; congruence]].
      cbv zeta. rewrite E. split.
      * intros X. injection X as <-. exists r, l, a, b, c, d. auto 10.
      * intros (r' & l' & a' & b' & c' & d' & X1 & X2 & Y1 & Y2 & Y3 & Y4 & ->). injection X1 as <-. injection X2 as <-. congruence.
    + split; [|intros (r' & l' & a' & b' & c' & d' & _ & X & _); discriminate X].
      unfold entry_at at 1. destruct (nth_error indep (i * 4 + 2)); cbn [rmap need_r rbind]; discriminate.
  - split; [|intros (r' & l' & a' & b' & c' & d' & X & _); discriminate X].
    unfold entry_at at 1. destruct (nth_error indep (i * 4 + 0)); cbn [rmap need_r rbind]; discriminate.
Qed.
Lemma from_nth indep : forall (s : ps K) i S, analytical_from m indep i s = Ok S -> length S = length s /\
  forall k p, nth_error s k = Some p -> exists q, nth_error S k = Some q /\ analytical m indep (i + k) p = Ok q.
Proof.
  induction s as [|p s IH]; intros i S E; cbn [analytical_from] in E.
  - injection E as <-. split; [reflexivity|]. intros [|k] p; discriminate.
  - destruct (analytical m indep i p) as [q|] eqn:Eq; cbn [rbind] in E; [|discriminate E]. destruct (analytical_from m indep (Datatypes.S i) s) as [S'|] eqn:Es; cbn [rmap] in E; [|discriminate E]. injection E as <-.
    destruct (IH _ _ Es) as [L N]. split; [cbn; congruence|]. intros [|k] p' Hp.
    + injection Hp as <-. exists q. rewrite Nat.add_0_r. auto.
    + destruct (N k p' Hp) as (q' & A & B). exists q'. split; [exact A|]. rewrite <- B. f_equal. lia.
Qed.
Lemma from_ok indep : forall (s : ps K) i, (forall k p, nth_error s k = Some p -> exists q, analytical m indep (i + k) p = Ok q) -> exists S, analytical_from m indep i s = Ok S.
Proof.
  induction s as [|p s IH]; intros i H; cbn [analytical_from]; [eauto|].
  destruct (H 0 p eq_refl) as (q & E). rewrite Nat.add_0_r in E. rewrite E. cbn [rbind].
  destruct (IH (Datatypes.S i)) as (S & ->). { intros k p' Hp. destruct (H (Datatypes.S k) p' Hp) as (q' & E'). exists q'. rewrite <- E'. f_equal. lia. }
  cbn [rmap]. eauto.
Qed.
End Make.

Definition mask_of {K : Fld} (indep : option (list bool)) (s : ps K) : list bool := match indep with None => repeat false (4 * length s) | Some l => l end.
Section Analytic.
Context {K0 : Fld}.
Lemma repeat_nth {A} (x : A) n k : k < n -> nth_error (repeat x n) k = Some x.
Proof. intros H. apply nth_error_repeat, H. Qed.
Lemma make_ok (s : ps K0) indep : Forall has_spinors s -> 4 * length s <= length (mask_of indep s) -> exists S, make_analytical_d indep s = Ok S.
Proof.
  intros Hs Hm. unfold make_analytical_d. apply from_ok. intros k p Hp. fold (mask_of indep s).
  assert (Hk : k < length s) by (apply nth_error_Some; congruence).
  rewrite Forall_forall in Hs. destruct (Hs p (nth_error_In _ _ Hp)) as [A B]. destruct (r_d p) as [r|] eqn:Er; [|contradiction]. destruct (l_d p) as [l|] eqn:El; [|contradiction].
  assert (X : forall c (x : K0), c < 4 -> exists y, entry_at (4 * length s) (mask_of indep s) ((0 + k) * 4 + c) (Ok x) = Ok y).
  { intros c x Hc. unfold entry_at. destruct (nth_error (mask_of indep s) ((0 + k) * 4 + c)) eqn:E; [cbn [rbind]; eauto|]. apply nth_error_None in E. lia. }
  destruct (X 0 (e0 r)) as (a & Ea); [lia|]. destruct (X 1 (e1 r)) as (b & Eb); [lia|]. destruct (X 2 (e0 l)) as (c & Ec); [lia|]. destruct (X 3 (e1 l)) as (d & Ed); [lia|].
  eexists. apply analytical_eq. exists r, l, a, b, c, d. auto 10.
Qed.
Lemma make_spinors (s : ps K0) indep S : make_analytical_d indep s = Ok S -> Forall has_spinors s /\ (s <> [] -> 4 * length s <= length (mask_of indep s)).
Proof.
  intros E. unfold make_analytical_d in E. fold (mask_of indep s) in E. destruct (from_nth _ _ _ _ _ E) as [L N]. split.
  - apply Forall_forall. intros p Hp. apply In_nth_error in Hp. destruct Hp as (k & Hk). destruct (N k p Hk) as (q & _ & A). apply analytical_eq in A. destruct A as (r & l & _ & _ & _ & _ & X & Y & _). split; [rewrite X|rewrite Y]; discriminate.
  - intros Ne. destruct (nth_error s (length s - 1)) as [p|] eqn:Ep; [|apply nth_error_None in Ep; destruct s; [contradiction|cbn [length] in Ep; lia]].
    destruct (N _ p Ep) as (q & _ & A). apply analytical_eq in A. destruct A as (r & l & _ & _ & _ & d & _ & _ & _ & _ & _ & D & _). unfold entry_at in D.
    destruct (nth_error (mask_of indep s) _) as [b|] eqn:M; [|discriminate D]. assert (M' := proj1 (nth_error_Some _ _) ltac:(rewrite M; discriminate)). assert (length s <> 0) by (destruct s; [contradiction|discriminate]). lia.
Qed.
Lemma make_built (s : ps K0) indep S : make_analytical_d indep s = Ok S -> length S = length s /\ Forall reproduces S /\ sound S.
Proof.
  intros E. unfold make_analytical_d in E. destruct (from_nth _ _ _ _ _ E) as [L N]. split; [exact L|].
  assert (X : Forall (fun q => reproduces q /\ consistent q) S).
  { apply Forall_forall. intros q Hq. apply In_nth_error in Hq. destruct Hq as (k & Hk). assert (Lk : k < length s) by (rewrite <- L; apply nth_error_Some; congruence).
    destruct (nth_error s k) as [p|] eqn:Ep; [|apply nth_error_None in Ep; lia]. destruct (N k p Ep) as (q' & Eq & A). rewrite Hk in Eq. injection Eq as <-.
    apply analytical_eq in A. destruct A as (r & l & a & b & c & d & _ & _ & _ & _ & _ & _ & ->). split; [apply built_reproduces|apply built_consistent]. }
  split; eapply Forall_impl; try exact X; intros q []; assumption.
Qed.
End Analytic.

(* ---- values of the symbols ---- *)
Section Components.
Context {K : Fld}.
Implicit Types (s t : ps K).
Lemma components_cons p r l s : r_d p = Some r -> l_d p = Some l -> components (p :: s) = [e0 r; e1 r; e0 l; e1 l] ++ components s.
Proof. intros A B. unfold components. cbn [flat_map]. rewrite A, B. reflexivity. Qed.
Lemma components_nth : forall s k p r l, Forall has_spinors s -> nth_error s k = Some p -> r_d p = Some r -> l_d p = Some l ->
  nth_error (components s) (k * 4 + 0) = Some (e0 r) /\ nth_error (components s) (k * 4 + 1) = Some (e1 r) /\
  nth_error (components s) (k * 4 + 2) = Some (e0 l) /\ nth_error (components s) (k * 4 + 3) = Some (e1 l).
Proof.
  induction s as [|p0 s IH]; intros k p r l Hs Hk Er El; [destruct k; discriminate Hk|]. inversion Hs as [|p0' s' [A B] Hs']. subst. 
  destruct k as [|k].
  - injection Hk as ->. rewrite (components_cons _ _ _ _ Er El). auto.
  - destruct (r_d p0) as [r0|] eqn:E1; [|contradiction]. destruct (l_d p0) as [l0|] eqn:E2; [|contradiction]. rewrite (components_cons _ _ _ _ E1 E2).
    specialize (IH k p r l Hs' Hk Er El). replace (Datatypes.S k * 4) with (4 + k * 4) by lia. cbn [app plus nth_error]. exact IH.
Qed.
Lemma components_length s : Forall has_spinors s -> length (components s) = 4 * length s.
Proof.
  induction 1 as [|p s [A B] Hs IH]; [reflexivity|]. destruct (r_d p) as [r|] eqn:Er; [|contradiction]. destruct (l_d p) as [l|] eqn:El; [|contradiction].
  rewrite (components_cons _ _ _ _ Er El). cbn [app length]. rewrite IH. lia.
Qed.
Lemma name_eq k c : c < 4 -> name (k * 4 + c) = var_name (97 + Z.of_nat c) (Z.of_nat k + 1).
Proof.
  intros H. unfold name, var_name. replace ((k * 4 + c) mod 4) with c; [|rewrite Nat.add_comm, Nat.mod_add, Nat.mod_small; lia].
  replace ((k * 4 + c) / 4) with k; [|rewrite Nat.add_comm, Nat.div_add, Nat.div_small; lia]. do 2 f_equal. lia.
Qed.
Lemma get_nth s k p : nth_error s k = Some p -> getitem s (Z.of_nat k + 1) = Ok p.
Proof.
  intros H. assert (L := proj1 (nth_error_Some s k) ltac:(congruence)). rewrite getitem_nth. unfold zlen. rewrite (proj2 (Z.leb_le 1 _)), (proj2 (Z.leb_le _ _)) by lia. cbn [andb].
  replace (Z.to_nat (Z.of_nat k + 1 - 1)) with k by lia. rewrite H. reflexivity.
Qed.
Lemma nth_get s i p : getitem s i = Ok p -> (1 <= i)%Z /\ nth_error s (Z.to_nat (i - 1)) = Some p.
Proof. rewrite getitem_nth. destruct (Z.leb_spec 1 i); cbn [andb]; [|discriminate]. destruct (i <=? zlen s)%Z; [|discriminate]. destruct (nth_error s (Z.to_nat (i - 1))); [|discriminate]. intros X. injection X as ->. auto. Qed.
Lemma subs_spinors t d : analytical_subs_d t = Ok d -> Forall has_spinors t.
Proof.
  intros E. apply Forall_forall. intros p Hp. apply In_nth_error in Hp. destruct Hp as (k & Hk). destruct (subs_get t d _ p E (get_nth _ _ _ Hk)) as ((r & l & A & B) & _).
  split; [rewrite A|rewrite B]; discriminate.
Qed.
Lemma subs_given t d k p r l : analytical_subs_d t = Ok d -> nth_error t k = Some p -> r_d p = Some r -> l_d p = Some l ->
  given d (k * 4 + 0) = e0 r /\ given d (k * 4 + 1) = e1 r /\ given d (k * 4 + 2) = e0 l /\ given d (k * 4 + 3) = e1 l.
Proof.
  intros E Hk Er El. destruct (subs_get t d _ p E (get_nth _ _ _ Hk)) as (_ & G). unfold given. rewrite !name_eq by lia. unfold var_name.
  rewrite !G by lia. unfold component. rewrite Er, El. auto.
Qed.
Lemma subs_exists t : Forall has_spinors t -> exists d, analytical_subs_d t = Ok d.
Proof.
  intros H. apply subs_ok. intros k p G. apply nth_get in G. destruct G as [_ G]. rewrite Forall_forall in H. destruct (H p (nth_error_In _ _ G)) as [A B].
  destruct (r_d p) as [r|]; [|contradiction]. destruct (l_d p) as [l|]; [|contradiction]. eauto.
Qed.
Lemma split4 m j : j < 4 * m -> exists k c, k < m /\ c < 4 /\ j = k * 4 + c.
Proof. intros H. exists (j / 4), (j mod 4). assert (A := Nat.div_mod j 4 ltac:(lia)). assert (B := Nat.mod_upper_bound j 4 ltac:(lia)). lia. Qed.
Lemma subs_complete t d : analytical_subs_d t = Ok d -> complete (4 * length t) d.
Proof.
  intros E j J. destruct (split4 _ _ J) as (k & c & Hk & Hc & ->). destruct (nth_error t k) as [p|] eqn:Ep; [|apply nth_error_None in Ep; lia].
  destruct (subs_get t d _ p E (get_nth _ _ _ Ep)) as ((r & l & A & B) & G). rewrite name_eq by exact Hc. unfold var_name. rewrite G by lia. unfold component. rewrite A, B. discriminate.
Qed.
Lemma subs_components t d j : analytical_subs_d t = Ok d -> j < 4 * length t -> nth_error (components t) j = Some (given d j).
Proof.
  intros E J. destruct (split4 _ _ J) as (k & c & Hk & Hc & ->). destruct (nth_error t k) as [p|] eqn:Ep; [|apply nth_error_None in Ep; lia].
  destruct (subs_get t d _ p E (get_nth _ _ _ Ep)) as ((r & l & A & B) & G).
  destruct (subs_given t d k p r l E Ep A B) as (G0 & G1 & G2 & G3). destruct (components_nth t k p r l (subs_spinors _ _ E) Ep A B) as (C0 & C1 & C2 & C3).
  destruct c as [|[|[|[|c]]]]; [rewrite C0, G0|rewrite C1, G1|rewrite C2, G2|rewrite C3, G3|lia]; reflexivity.
Qed.
End Components.

(* ---- the values of the analytic point ---- *)
Section Values.
Context {K0 K : Fld} (R0 : K0 -> K -> Prop) (RR0 : ring_rel K0 K R0).
Lemma prel_built (L : Fld) (R : L -> K -> Prop) (RR : ring_rel L K R) (r l : v2 L) (r' l' : v2 K) sp (p : particle K) :
  v2rel R r r' -> v2rel R l l' -> reproduces p -> r_d p = Some r' -> l_d p = Some l' -> prel R (built r l sp) p.
Proof.
  intros Hr Hl (r2' & l2' & A & B & C1 & C2 & C3 & C4) Er El. rewrite Er in A. rewrite El in B. injection A as <-. injection B as <-.
  assert (Ra : forall u u', v2rel R u u' -> v2rel R (raise_r u) (raise_r u')) by (intros u u' [X Y]; split; cbn; [exact Y|apply R_opp; assumption]).
  assert (Ou : forall u u' w w', v2rel R u u' -> v2rel R w w' -> m2rel R (outer u w) (outer u' w')) by (intros u u' w w' [X Y] [X' Y']; unfold outer, m2rel; cbn; repeat split; apply (rr_mul _ _ _ RR); assumption).
  constructor; cbn [built r_u r_d l_u l_d r2 r2b]; rewrite ?C1, ?C2, ?C3, ?C4, ?Er, ?El; cbn [orel]; auto.
Qed.
Lemma make_prel (s : ps K0) indep S (t : ps K) d : make_analytical_d indep s = Ok S -> length t = length s -> Forall reproduces t -> analytical_subs_d t = Ok d ->
  (forall j x y, kept indep j -> nth_error (components s) j = Some x -> nth_error (components t) j = Some y -> R0 x y) ->
  Forall2 (prel (subst R0 (given d) (4 * length s))) S t.
Proof.
  intros E Lt Rt D M. destruct (make_built _ _ _ E) as (LS & _). unfold make_analytical_d in E. fold (mask_of indep s) in E. destruct (from_nth _ _ _ _ _ E) as [_ N].
  apply F2_nth; [congruence|]. intros k q p' Hq Hp. assert (Hk : k < length s) by (rewrite <- Lt; apply nth_error_Some; congruence).
  destruct (nth_error s k) as [p|] eqn:Ep; [|apply nth_error_None in Ep; lia]. destruct (N k p Ep) as (q' & Eq & A). rewrite Hq in Eq. injection Eq as <-. cbn [plus] in A.
  apply analytical_eq in A. destruct A as (r & l & a & b & c & e & Er & El & Ea & Eb & Ec & Ee & ->).
  assert (Hs : Forall has_spinors s).
  { apply Forall_forall. intros p2 I. apply In_nth_error in I. destruct I as (k2 & I). destruct (N k2 p2 I) as (q2 & _ & A). apply analytical_eq in A. destruct A as (r2' & l2' & _ & _ & _ & _ & X & Y & _). split; [rewrite X|rewrite Y]; discriminate. }
  rewrite Forall_forall in Rt. assert (Rp := Rt p' (nth_error_In _ _ Hp)). destruct Rp as (r' & l' & Er' & El' & Rest).
  destruct (subs_given t d k p' r' l' D Hp Er' El') as (G0 & G1 & G2 & G3).
  destruct (components_nth s k p r l Hs Ep Er El) as (C0 & C1 & C2 & C3).
  assert (En : forall j (x : K0) y, j < 4 * length s -> entry_at (4 * length s) (mask_of indep s) j (Ok x) = Ok y -> nth_error (components s) j = Some x -> subst R0 (given d) (4 * length s) y (given d j)).
  { intros j x y J Ej Cj. unfold entry_at in Ej. destruct (nth_error (mask_of indep s) j) as [[|]|] eqn:Mj; cbn [rbind] in Ej; [| |discriminate Ej]; injection Ej as <-.
    - apply subst_const; [exact RR0|]. apply (M j x); [|exact Cj|].
      { destruct indep as [l0|]; [exists l0; auto|]. cbn [mask_of] in Mj. rewrite (repeat_nth _ _ _ J) in Mj. discriminate Mj. }
      apply subs_components; [exact D|lia].
    - apply subst_sym; [exact RR0|exact J]. }
  apply (prel_built _ _ (subst_ring R0 RR0 _ _) _ _ r' l'); [split; cbn [e0 e1]|split; cbn [e0 e1]|exists r', l'; auto|exact Er'|exact El'].
  - rewrite <- G0. apply (En _ (e0 r)); [lia|exact Ea|exact C0].
  - rewrite <- G1. apply (En _ (e1 r)); [lia|exact Eb|exact C1].
  - rewrite <- G2. apply (En _ (e0 l)); [lia|exact Ec|exact C2].
  - rewrite <- G3. apply (En _ (e1 l)); [lia|exact Ee|exact C3].
Qed.
End Values.
