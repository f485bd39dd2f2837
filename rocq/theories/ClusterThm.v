(* Proofs about Cluster.v: C16, C17. *)
From Coq Require Import List ZArith Bool Lia Ring Field Permutation.
From Verif Require Import Base Fld Particle ParticleSpec ParticleThm Index IndexThm Phase PhaseSpec PhaseThm Det Arcs Compute ComputeSpec ComputeThm ComputeThm2 ComputeThm5 Cluster ClusterSpec.
Import ListNotations.

Section Cluster.
Context {K : Fld}.
Open Scope fld_scope.
Implicit Types (s : ps K) (p q : particle K).
Add Field Kcl1 : (fth K).

(* sums in any convention *)
Lemma sum_step cv l : forall (s : particle K) (q : operand K), fold_left (sumstep cv) l (Ok (OPart s)) = Ok q ->
  exists s' : particle K, q = OPart s' /\ r2 s' = madd (r2 s) (total l) /\ (l = [] -> s' = s) /\ (consistent s -> consistent s').
Proof.
  induction l as [|x l IH]; intros s q E; cbn [fold_left] in E.
  - injection E as <-. exists s. unfold total. cbn. rewrite madd_0_r. auto.
  - unfold sumstep in E at 2. unfold p_add in E. destruct (new_r2_spec cv (madd (r2 s) (r2 x))) as [(H & _)|(_ & y & Ey & E2 & C)].
    + rewrite H in E. cbn in E. exfalso. clear -E. induction l; [discriminate|auto].
    + rewrite Ey in E. cbn [rmap] in E. destruct (IH y q E) as (s' & -> & R & _ & Cs). exists s'. split; [reflexivity|]. split; [|split].
      * rewrite R, E2. unfold total. cbn. symmetry; apply madd_assoc.
      * discriminate.
      * intros _. apply Cs, constructed_consistent, C.
Qed.
Lemma p_sum_any cv p l (q : operand K) : p_sum cv (p :: l) = Ok q ->
  exists s' : particle K, q = OPart s' /\ r2 s' = total (p :: l) /\ (l = [] -> s' = p) /\ (consistent p -> consistent s').
Proof.
  change (p_sum cv (p :: l)) with (fold_left (sumstep cv) l (sumstep cv (Ok (ONum 0)) p)).
  replace (sumstep cv (Ok (ONum 0)) p) with (Ok (OPart p)).
  2:{ unfold sumstep, p_radd, p_add. rewrite feqb_refl. reflexivity. }
  intros E. destruct (sum_step cv l p q E) as (s' & -> & R & S & C). exists s'. auto.
Qed.
Lemma mom_get b s l : rmapM (mom b s) l = rmap (map (fun p => if b then r2b p else r2 p)) (rmapM (getitem s) l).
Proof. unfold mom. apply (rmapM_rmap (getitem s) (fun p => if b then r2b p else r2 p)). Qed.
Lemma getitem_Forall {A} (P : A -> Prop) (l : list A) k x : Forall P l -> getitem l k = Ok x -> P x.
Proof.
  intros F. unfold getitem. destruct (rebase (zlen l) k) as [j|]; [|discriminate]. cbn. unfold list_get. destruct (nth_error l (Z.to_nat j)) as [y|] eqn:E; [|discriminate].
  intros [= <-]. apply (proj1 (Forall_forall _ _) F). apply (nth_error_In _ _ E).
Qed.
Lemma rmapM_get_Forall (P : particle K -> Prop) s l r : Forall P s -> rmapM (getitem s) l = Ok r -> Forall P r.
Proof.
  intros F. revert r. induction l as [|k l IH]; cbn; intros r E; [injection E as <-; constructor|].
  destruct (getitem s k) as [p|] eqn:G; [|discriminate]. destruct (rmapM (getitem s) l) as [r'|]; [|discriminate]. injection E as <-.
  constructor; [apply (getitem_Forall P s k p F G)|apply IH; reflexivity].
Qed.
Lemma corner_sum_spec cv s c p : corner_sum cv s c = Ok p ->
  mom_sum false s c = Ok (r2 p) /\ (forall i, c = [i] -> getitem s i = Ok p) /\ (sound s -> consistent p) /\ c <> [].
Proof.
  unfold corner_sum. destruct (rmapM (getitem s) c) as [ls|] eqn:E; [|discriminate]. cbn [rbind].
  destruct ls as [|x ls]; [cbn; discriminate|]. destruct (p_sum cv (x :: ls)) as [o|] eqn:S; [|discriminate]. cbn [rbind].
  destruct (p_sum_any cv x ls o S) as (y & -> & R & O & C). intros [= ->].
  assert (N : c <> []) by (intros ->; cbn in E; discriminate).
  split; [|split; [|split; [|assumption]]].
  - unfold mom_sum. destruct c as [|k c]; [contradiction|]. rewrite (mom_get false), E. cbn [rmap rbind]. rewrite R. reflexivity.
  - intros i ->. cbn in E. destruct (getitem s i) as [z|]; [|discriminate]. injection E as <- <-. rewrite O; reflexivity.
  - intros Sd. apply C. pose proof (rmapM_get_Forall _ s c _ Sd E) as F. apply (Forall_inv F).
Qed.
Lemma rmapM_getitem {A B} (f : A -> result B) l : forall r, rmapM f l = Ok r -> length r = length l /\
  forall k, getitem r k = rbind (getitem l k) f.
Proof.
  assert (H : forall r, rmapM f l = Ok r -> length r = length l /\ forall j, nth_error r j = match nth_error l j with Some x => match f x with Ok y => Some y | Err _ => None end | None => None end).
  { induction l as [|x l IH]; cbn; intros r E; [injection E as <-; split; [reflexivity|intros [|]; reflexivity]|].
    destruct (f x) as [y|] eqn:Ex; [|discriminate]. destruct (rmapM f l) as [r'|] eqn:Er; [|discriminate]. injection E as <-.
    destruct (IH r' eq_refl) as [L G]. split; [cbn; congruence|]. intros [|j]; cbn; [rewrite Ex; reflexivity|apply G]. }
  assert (Hok : forall r, rmapM f l = Ok r -> forall x, In x l -> exists y, f x = Ok y).
  { clear H. induction l as [|x l IH]; cbn; intros r E z I; [contradiction|].
    destruct (f x) as [y|] eqn:Ex; [|discriminate]. destruct (rmapM f l) as [r'|] eqn:Er; [|discriminate]. destruct I as [<-|I]; [eauto|]. apply (IH r' eq_refl z I). }
  intros r E. destruct (H r E) as [L G]. split; [assumption|]. intros k. unfold getitem, zlen. rewrite L.
  destruct (rebase (Z.of_nat (length l)) k) as [j|]; [|reflexivity]. cbn [rbind]. unfold list_get. rewrite G.
  destruct (nth_error l (Z.to_nat j)) as [x|] eqn:N; [|reflexivity]. cbn [rbind]. destruct (Hok r E x (nth_error_In _ _ N)) as (y & Ey). rewrite Ey. reflexivity.
Qed.

Lemma cluster_length cv cs s s' : cluster cv cs s = Ok s' -> length s' = length cs.
Proof. intros E. apply (rmapM_getitem _ _ _ E). Qed.
Lemma cluster_get cv cs s s' k c : cluster cv cs s = Ok s' -> getitem cs k = Ok c ->
  exists p, getitem s' k = Ok p /\ corner_sum cv s c = Ok p.
Proof.
  intros E G. destruct (rmapM_getitem _ _ _ E) as [L H]. specialize (H k). rewrite G in H. cbn [rbind] in H.
  destruct (corner_sum cv s c) as [p|e] eqn:C; [eauto|]. exfalso. unfold cluster in E.
  assert (I : In c cs). { unfold getitem in G. destruct (rebase (zlen cs) k) as [j|]; [|discriminate]. cbn in G. unfold list_get in G.
    destruct (nth_error cs (Z.to_nat j)) eqn:N; [|discriminate]. injection G as ->. apply (nth_error_In _ _ N). }
  revert E. clear -I C. revert s'. induction cs as [|x cs IH]; [contradiction|]. intros s' E. cbn in E. destruct I as [->|I].
  - rewrite C in E. discriminate.
  - destruct (corner_sum cv s x); [|discriminate]. destruct (rmapM (corner_sum cv s) cs) as [r|]; [|discriminate]. apply (IH I r eq_refl).
Qed.
Lemma cluster_sound cv cs s s' : cluster cv cs s = Ok s' -> sound s -> sound s'.
Proof.
  intros E S. unfold sound, cluster in *. revert s' E. induction cs as [|c cs IH]; cbn; intros s' E; [injection E as <-; constructor|].
  destruct (corner_sum cv s c) as [p|] eqn:C; [|discriminate]. destruct (rmapM (corner_sum cv s) cs) as [r|]; [|discriminate]. injection E as <-.
  constructor; [|apply IH; reflexivity]. apply (corner_sum_spec cv s c p C). exact S.
Qed.
(* in the symmetric convention it always succeeds *)
Lemma cluster_ok cs s : Forall (fun c => c <> [] /\ Forall (fun i => (1 <= i <= zlen s)%Z) c) cs -> exists s', cluster Symmetric cs s = Ok s'.
Proof.
  unfold cluster. induction 1 as [|c cs [N F] _ IH]; cbn; [eexists; reflexivity|]. destruct IH as (r & ->).
  assert (G : exists ls, rmapM (getitem s) c = Ok ls /\ length ls = length c).
  { clear N. induction F as [|i c R _ IH]; cbn; [eexists; split; reflexivity|]. destruct (getitem_ok s i R) as (p & -> & _). destruct IH as (ls & -> & L). eexists; split; [reflexivity|cbn; congruence]. }
  destruct G as (ls & G & L). unfold corner_sum at 1. rewrite G. cbn [rbind]. destruct ls as [|x ls]; [destruct c; [contradiction|discriminate]|].
  destruct (p_sum_spec x ls) as (y & Ey & _). rewrite Ey. cbn [rbind]. eexists; reflexivity.
Qed.
Lemma total_cluster cv cs s s' : cluster cv cs s = Ok s' -> Permutation (concat cs) (upto (length s)) -> total_mom s' = total_mom s.
Proof.
  intros E P.
  assert (H : forall cs s', cluster cv cs s = Ok s' -> exists ms, rmapM (mom false s) (concat cs) = Ok ms /\ total_mom s' = msum ms).
  { clear. unfold cluster. induction cs as [|c cs IH]; cbn; intros s' E; [injection E as <-; exists []; split; reflexivity|].
    destruct (corner_sum cv s c) as [p|] eqn:C; [|discriminate]. destruct (rmapM (corner_sum cv s) cs) as [r|]; [|discriminate]. injection E as <-.
    destruct (IH r eq_refl) as (ms & Em & T). apply corner_sum_spec in C as (M & _). unfold mom_sum in M. destruct c as [|k c]; [discriminate|].
    destruct (rmapM (mom false s) (k :: c)) as [mc|] eqn:Ec; [|discriminate]. cbn in M. injection M as M.
    exists (mc ++ ms). split.
    - assert (A : forall l1 l2 r1 r2, rmapM (mom false s) l1 = Ok r1 -> rmapM (mom false s) l2 = Ok r2 -> rmapM (mom false s) (l1 ++ l2) = Ok (r1 ++ r2)).
      { clear. induction l1 as [|x l1 IH]; cbn; intros l2 r1 r2 E1 E2; [injection E1 as <-; assumption|]. destruct (mom false s x); [|discriminate].
        destruct (rmapM (mom false s) l1) as [r|]; [|discriminate]. injection E1 as <-. rewrite (IH l2 r r2 eq_refl E2). reflexivity. }
      apply (A (k :: c) (concat cs)); assumption.
    - rewrite msum_app, M, <- T. reflexivity. }
  destruct (H cs s' E) as (ms & Em & T). rewrite T. unfold total_mom.
  destruct (rmapM_perm (mom false s) _ _ P _ Em) as (r & Er & Pr). rewrite mom_all in Er. injection Er as <-. apply msum_perm, Pr.
Qed.

(* strings over the clusters *)
Section Expand.
Variables (cv : convention) (cs : list (list Z)) (s s' : ps K).
Hypothesis E : cluster cv cs s = Ok s'.
Hypothesis S : sound s.

Lemma range_get k : in_range cs k -> exists p, getitem cs k = Ok (corner cs k) /\ getitem s' k = Ok p /\
  mom_sum false s (corner cs k) = Ok (r2 p) /\ consistent p /\ corner cs k <> [].
Proof.
  intros R. unfold corner. destruct (getitem_ok cs k R) as (c & G & _). rewrite G.
  destruct (cluster_get cv cs s s' k c E G) as (p & Gp & C). apply corner_sum_spec in C as (M & _ & C & N). exists p. split; [reflexivity|]. split; [exact Gp|]. split; [exact M|]. split; [exact (C S)|exact N].
Qed.
Lemma mom_sum_flag b l : mom_sum b s l = rmap (flagm b) (mom_sum false s l).
Proof.
  destruct l as [|k l]; [reflexivity|]. unfold mom_sum. rewrite (rmapM_ext (mom b s) (fun x => rmap (flagm b) (mom false s x))) by (intros; apply mom_flag, sound_barred, S).
  rewrite (rmapM_rmap (mom false s) (flagm b)). destruct (rmapM (mom false s) (k :: l)) as [ms|]; [|reflexivity]. cbn. f_equal.
  clear. induction ms as [|m ms IH]; [destruct b; [unfold flagm, adj, mzero; cbn; unfold mzero; f_equal; ring|reflexivity]|]. cbn [map]. change (madd (flagm b m) (msum (map (flagm b) ms)) = flagm b (madd m (msum ms))).
  rewrite IH, <- flagm_add. reflexivity.
Qed.
Lemma mom_cluster b k : in_range cs k -> mom b s' k = mom_sum b s (corner cs k) /\ exists m, mom b s' k = Ok m.
Proof.
  intros R. destruct (range_get k R) as (p & _ & G & M & C & _). unfold mom. rewrite G, mom_sum_flag, M. cbn. split; [|eauto].
  destruct b; unfold flagm; [|reflexivity]. rewrite (cons_r2b _ C). reflexivity.
Qed.
Lemma rmapM_app_ok {A B} (f : A -> result B) l1 l2 : rmapM f (l1 ++ l2) = rbind (rmapM f l1) (fun r1 => rmap (app r1) (rmapM f l2)).
Proof.
  induction l1 as [|x l1 IH]; cbn; [destruct (rmapM f l2); reflexivity|]. destruct (f x); [|reflexivity]. rewrite IH.
  destruct (rmapM f l1); cbn; [|reflexivity]. destruct (rmapM f l2); reflexivity.
Qed.
Lemma mom_sum_ok b l m : mom_sum b s l = Ok m -> l <> [] /\ exists mc, rmapM (mom b s) l = Ok mc /\ msum mc = m.
Proof.
  unfold mom_sum. destruct l as [|x c]; [discriminate|]. destruct (rmapM (mom b s) (x :: c)) as [mc|]; [|discriminate]. cbn. intros [= <-]. split; [discriminate|eauto].
Qed.
Lemma moms_cluster b l : Forall (in_range cs) l -> exists ms mf, rmapM (mom b s') l = Ok ms /\ rmapM (mom b s) (flat_map (corner cs) l) = Ok mf /\ msum mf = msum ms.
Proof.
  induction 1 as [|k l R _ IH]; cbn [rmapM flat_map]; [exists [], []; auto|]. destruct IH as (ms & mf & Es & Ef & Q).
  destruct (mom_cluster b k R) as (M & m & Em). rewrite Em, Es. rewrite Em in M.
  symmetry in M. apply mom_sum_ok in M as (N & mc & Emc & M).
  exists (m :: ms), (mc ++ mf). split; [reflexivity|]. split; [rewrite rmapM_app_ok, Emc, Ef; reflexivity|]. rewrite msum_app, Q. cbn.
  f_equal. exact M.
Qed.
Lemma momsum_cluster b l : Forall (in_range cs) l -> mom_sum b s' l = mom_sum b s (flat_map (corner cs) l).
Proof.
  intros R. destruct (moms_cluster b l R) as (ms & mf & Es & Ef & Q). destruct l as [|k l]; [reflexivity|]. unfold mom_sum at 1. rewrite Es. cbn [rbind].
  unfold mom_sum. destruct (flat_map (corner cs) (k :: l)) as [|x f] eqn:F.
  - exfalso. cbn in F. apply app_eq_nil in F as [F _]. apply Forall_inv in R. apply range_get in R as (_ & _ & _ & _ & _ & N). contradiction.
  - rewrite Ef. cbn. rewrite Q. reflexivity.
Qed.
Lemma rest_block b sg c : forall acc mc, rmapM (mom b s) c = Ok mc ->
  entry_rest b s acc (map (pair sg) c) = Ok (if sg then madd acc (msum mc) else msub acc (msum mc)).
Proof.
  induction c as [|k c IH]; cbn; intros acc mc Ec.
  - injection Ec as <-. f_equal. destruct acc, sg; unfold madd, msub, mzero; cbn; f_equal; ring.
  - destruct (mom b s k) as [m|]; [|discriminate]. cbn [rbind]. destruct (rmapM (mom b s) c) as [mc'|]; [|discriminate]. injection Ec as <-.
    rewrite (IH _ mc' eq_refl). change (msum (m :: mc')) with (madd m (msum mc')). f_equal. destruct sg, acc, m, (msum mc'); unfold madd, msub; cbn; f_equal; ring.
Qed.
Lemma rest_cluster b l : Forall (fun x => in_range cs (snd x)) l -> forall acc,
  entry_rest b s' acc l = entry_rest b s acc (flat_map (fun x => map (pair (fst x)) (corner cs (snd x))) l).
Proof.
  induction 1 as [|[sg k] l R _ IH]; intros acc; [reflexivity|]. cbn [entry_rest flat_map fst snd] in *.
  destruct (mom_cluster b k R) as (M & m & Em). rewrite Em. cbn [rbind]. rewrite entry_rest_app. rewrite Em in M.
  symmetry in M. apply mom_sum_ok in M as (N & mc & Emc & M).
  rewrite (rest_block b sg (corner cs k) acc mc Emc). cbn [rbind]. rewrite IH, M. reflexivity.
Qed.
Lemma entry_cluster b e : entry_ok cs e -> entry_val b s' e = entry_val b s (xentry cs e).
Proof.
  intros [R Rr]. unfold entry_val, xentry. cbn [fst snd]. destruct (mom_cluster b (fst e) R) as (M & m & Em). rewrite Em. cbn [rbind].
  rewrite Em in M. unfold xlabel. destruct (corner cs (fst e)) as [|x c] eqn:Ec; [discriminate|]. cbn [hd tl].
  unfold mom_sum in M. cbn [rmapM] in M. destruct (mom b s x) as [mx|]; [|discriminate]. cbn [rbind].
  destruct (rmapM (mom b s) c) as [mc|] eqn:Emc; [|discriminate]. cbn in M. injection M as M.
  rewrite entry_rest_app, (rest_block b true c mx mc Emc). cbn [rbind]. rewrite (rest_cluster b _ Rr). rewrite M. reflexivity.
Qed.
Lemma mid_cluster es : Forall (entry_ok cs) es -> forall b acc, mid_rest b s' acc es = mid_rest b s acc (map (xentry cs) es).
Proof. induction 1 as [|e es R _ IH]; intros b acc; cbn; [reflexivity|]. rewrite entry_cluster by assumption. destruct (entry_val b s (xentry cs e)); cbn; auto. Qed.
Lemma middle_cluster b es : Forall (entry_ok cs) es -> middle b s' es = middle b s (map (xentry cs) es).
Proof.
  intros F. destruct F as [|e es R F]; [reflexivity|]. cbn. rewrite entry_cluster by assumption. destruct (entry_val b s (xentry cs e)); cbn; [apply mid_cluster, F|reflexivity].
Qed.
Lemma single_get k : single cs k -> getitem s' k = getitem s (xlabel cs k).
Proof.
  intros (i & G). unfold xlabel, corner. rewrite G. cbn [hd]. destruct (cluster_get cv cs s s' k [i] E G) as (p & Gp & C).
  apply corner_sum_spec in C as (_ & H & _). rewrite Gp, (H i eq_refl). reflexivity.
Qed.
Lemma chain_cluster o a es d c : single cs a -> Forall (entry_ok cs) es -> single cs d ->
  c_chain s' o a es d c = c_chain s o (xlabel cs a) (map (xentry cs) es) (xlabel cs d) c.
Proof. intros A F D. unfold c_chain. rewrite map_length, !single_get by assumption. rewrite !middle_cluster by assumption. reflexivity. Qed.
Lemma one_char_single e : tr5_entry_ok cs e -> one_char e = true -> single cs (fst e).
Proof.
  intros [[R _] O] H. rewrite H in O. destruct (range_get (fst e) R) as (_ & G & _ & _ & _ & Nc). unfold one_char in O, H. destruct e as [k l]. cbn [fst snd] in *.
  destruct l; [|discriminate]. unfold xentry in O. cbn [fst snd flat_map] in O. rewrite app_nil_r in O.
  unfold xlabel in O. destruct (corner cs k) as [|i c]; cbn in *; [contradiction|]. destruct c; cbn in *; [|discriminate]. exists i. exact G.
Qed.
Lemma tr5_cluster a b c d : tr5_entry_ok cs a -> tr5_entry_ok cs b -> tr5_entry_ok cs c -> tr5_entry_ok cs d ->
  c_tr5 s' a b c d = c_tr5 s (xentry cs a) (xentry cs b) (xentry cs c) (xentry cs d).
Proof.
  intros A B C D. unfold c_tr5. cbn [tr5_rotate]. rewrite (proj2 A), (proj2 B), (proj2 C), (proj2 D).
  assert (X : forall e f g h, tr5_entry_ok cs e -> tr5_entry_ok cs f -> tr5_entry_ok cs g -> tr5_entry_ok cs h -> one_char e = true -> forall o z,
    c_chain s' o (fst e) [f; g; h] (fst e) z = c_chain s o (fst (xentry cs e)) [xentry cs f; xentry cs g; xentry cs h] (fst (xentry cs e)) z).
  { intros e f g h He [Hf _] [Hg _] [Hh _] H o z. change (fst (xentry cs e)) with (xlabel cs (fst e)).
    rewrite (chain_cluster o (fst e) [f; g; h] (fst e) z); [reflexivity|apply one_char_single; assumption|repeat (apply Forall_cons; [assumption|]); apply Forall_nil|apply one_char_single; assumption]. }
  destruct (one_char a) eqn:Oa; [|destruct (one_char b) eqn:Ob; [|destruct (one_char c) eqn:Oc; [|destruct (one_char d) eqn:Od]]]; cbn [rbind]; try reflexivity.
  - rewrite !(X a b c d) by assumption. reflexivity.
  - rewrite !(X b c d a) by assumption. reflexivity.
  - rewrite !(X c d a b) by assumption. reflexivity.
  - rewrite !(X d a b c) by assumption. reflexivity.
Qed.
Lemma S_cluster l : Forall (in_range cs) l -> c_S s' l = c_S s (flat_map (corner cs) l).
Proof. intros R. unfold c_S. rewrite momsum_cluster by assumption. reflexivity. Qed.
Lemma rmapM_Forall {A B} (f g : A -> result B) (P : A -> Prop) l : Forall P l -> (forall x, P x -> f x = g x) -> rmapM f l = rmapM g l.
Proof. intros F H. apply rmapM_ext. intros x I. apply H, (proj1 (Forall_forall _ _) F x I). Qed.
Lemma cluster_compute e : over_clusters cs e -> compute s' e = compute s (expand cs e).
Proof.
  intros O. destruct e; cbn [over_clusters expand compute] in *; try contradiction.
  - rewrite tr5_cluster by tauto. reflexivity.
  - unfold c_tr. rewrite middle_cluster by assumption. reflexivity.
  - unfold c_delta. rewrite !rmapM_map, map_length.
    rewrite (rmapM_Forall (mom_sum false s') (fun x => mom_sum false s (flat_map (corner cs) x)) _ _ O) by (intros; apply momsum_cluster; assumption).
    rewrite (rmapM_Forall (mom_sum true s') (fun x => mom_sum true s (flat_map (corner cs) x)) _ _ O) by (intros; apply momsum_cluster; assumption).
    reflexivity.
  - rewrite S_cluster by (repeat constructor; apply O). cbn [flat_map]. rewrite app_nil_r. reflexivity.
  - rewrite S_cluster by assumption. reflexivity.
  - destruct O as [A B]. unfold c_A2. rewrite !single_get by assumption. reflexivity.
  - rewrite single_get by assumption. reflexivity.
  - rewrite single_get by assumption. reflexivity.
  - destruct O as [A B]. unfold c_S2. rewrite !single_get by assumption. reflexivity.
  - rewrite single_get by assumption. reflexivity.
  - rewrite single_get by assumption. reflexivity.
  - destruct O as (A & F & D). rewrite chain_cluster by assumption. reflexivity.
  - destruct O as (F & D). unfold c_open_begin. rewrite map_length, middle_cluster, single_get by assumption. reflexivity.
  - destruct O as (A & F). unfold c_open_end. rewrite !middle_cluster, single_get by assumption. reflexivity.
  - rewrite middle_cluster by assumption. reflexivity.
Qed.
End Expand.
End Cluster.

Section Fermions.
Context {K : Fld}.
Open Scope fld_scope.
Implicit Types (s t : ps K) (p q : particle K).
Add Field Kcl2 : (fth K).
Ltac fmring := apply m2_ext; unfold adj, raise_r, cols, rows, LeviCivita in *; unfold_vec; cbn; ring.
Ltac fvring := apply v2_ext; unfold adj, raise_r, cols, rows, LeviCivita in *; unfold_vec; cbn; ring.

(* a leg with new spinors and a spin index *)
Definition fermion_leg (up : bool) (r l : v2 K) p : particle K :=
  mkP (Some (raise_r r)) (Some r) (Some (raise_r l)) (Some l) (r2 p) (r2b p) (fm p) (fmd p) (Some up).
Lemma set_fermion_eq up r l p : set_fermion up r l p = (fermion_leg up r l p, Ok tt).
Proof.
  unfold set_fermion, sps_d_to_sps_u, l_sp_d_to_l_sp_u, r_sp_d_to_r_sp_u, bind, modify, get, need, ret. cbn.
  unfold fermion_leg, set_ru, set_lu, set_spin, set_ld, set_rd. cbn. rewrite LC_mv, LC_vmT. reflexivity.
Qed.
Definition up_of (pos : position) : bool := match pos with Up => true | _ => false end.
Definition has_fermion s (cs : list (list Z)) (f : Z * position * Z) t t' : Prop :=
  let '(k, pos, i) := f in
  exists a b R L r l p, getitem cs k = Ok [a; b] /\ fermion_spinors pos s a b = Ok (R, L) /\ mcol R i = Ok r /\ mrow L i = Ok l /\
    getitem t k = Ok p /\ getitem t' k = Ok (fermion_leg (up_of pos) r l p).
Lemma massive_step s cs f t t' u : massive_fermion s cs f t = (t', Ok u) ->
  has_fermion s cs f t t' /\ length t' = length t /\ forall k, k <> fst (fst f) -> getitem t' k = getitem t k.
Proof.
  destruct f as [[k pos] i]. unfold massive_fermion, bind, lift. destruct (getitem cs k) as [c|] eqn:Gc; [|discriminate].
  destruct c as [|a [|b [|]]]; try discriminate. destruct (fermion_spinors pos s a b) as [[R L]|] eqn:F; [|discriminate]. cbn [fst snd].
  destruct (mcol R i) as [r|] eqn:Er; [|discriminate]. destruct (mrow L i) as [l|] eqn:El; [|discriminate].
  intros H. destruct (getitem t k) as [p|] eqn:Gp; [|unfold on in H; rewrite Gp in H; discriminate].
  destruct (on_eq k (set_fermion (match pos with Up => true | _ => false end) r l) t p Gp) as (t1 & E & Es). rewrite E in H. injection H as -> _.
  rewrite set_fermion_eq in Es. cbn [fst] in Es. destruct (setitem_laws t k (fermion_leg (up_of pos) r l p) p Gp) as (t2 & E2 & G2 & L2 & O2 & _).
  change (match pos with Up => true | _ => false end) with (up_of pos) in Es. rewrite Es in E2. injection E2 as <-.
  split; [|split; [assumption|exact O2]]. exists a, b, R, L, r, l, p. auto 10.
Qed.
Lemma massive_loop_spec s cs fs : forall t t' u, massive_loop s cs fs t = (t', Ok u) -> NoDup (map (fun f => fst (fst f)) fs) ->
  length t' = length t /\ (forall f, In f fs -> has_fermion s cs f t t') /\
  (forall k, ~ In k (map (fun f => fst (fst f)) fs) -> getitem t' k = getitem t k).
Proof.
  induction fs as [|f fs IH]; intros t t' u E ND; cbn [massive_loop] in E.
  - injection E as <- _. cbn. tauto.
  - unfold bind in E. destruct (massive_fermion s cs f t) as [t1 [u1|]] eqn:E1; [|discriminate].
    apply massive_step in E1 as (Hf & L1 & O1). cbn [map] in ND. apply NoDup_cons_iff in ND as [NI ND].
    destruct (IH t1 t' u E ND) as (L2 & H2 & O2). split; [congruence|]. split.
    + intros g [<-|I].
      * destruct f as [[k pos] i]. cbn [fst] in *. destruct Hf as (a & b & R & L & r & l & p & Hc & Hs & Hr & Hl & Hp & Hq).
        exists a, b, R, L, r, l, p. rewrite O2 by assumption. auto 10.
      * specialize (H2 g I). destruct g as [[k pos] i]. destruct H2 as (a & b & R & L & r & l & p & Hc & Hs & Hr & Hl & Hp & Hq).
        exists a, b, R, L, r, l, p. rewrite <- O1; [auto 10|]. cbn [fst]. intros Ek. apply NI. apply in_map_iff. exists (k, pos, i). split; [exact Ek|exact I].
    + intros k N. cbn [map In] in N. rewrite O2, O1; [reflexivity| |]; intros H; apply N; [left; symmetry; exact H|right; exact H].
Qed.
Lemma fermions_spec cv cs fs s t : cluster_fermions cv cs fs s = Ok t -> NoDup (map (fun f => fst (fst f)) fs) ->
  exists t0, cluster cv cs s = Ok t0 /\ length t = length t0 /\ (forall f, In f fs -> has_fermion s cs f t0 t) /\
  (forall k, ~ In k (map (fun f => fst (fst f)) fs) -> getitem t k = getitem t0 k).
Proof.
  unfold cluster_fermions. destruct (cluster cv cs s) as [t0|] eqn:E; [|discriminate]. cbn [rbind].
  destruct (massive_loop s cs fs t0) as [t1 [u|]] eqn:M; [|discriminate]. intros [= <-] ND.
  exists t0. split; [reflexivity|]. apply (massive_loop_spec s cs fs t0 t1 u M ND).
Qed.
(* the spinors of a leg with spin index *)
Lemma fermion_slices pos s a b R L i r l pa pb ra rb la lb :
  getitem s a = Ok pa -> getitem s b = Ok pb -> r_d pa = Some ra -> l_d pa = Some la -> r_d pb = Some rb -> l_d pb = Some lb ->
  fermion_spinors pos s a b = Ok (R, L) -> mcol R i = Ok r -> mrow L i = Ok l ->
  pos = Up /\ (i = 1%Z /\ r = ra /\ l = vopp lb \/ i = 2%Z /\ r = rb /\ l = la) \/
  pos = Down /\ (i = 1%Z /\ r = rb /\ l = la \/ i = 2%Z /\ r = vopp ra /\ l = lb).
Proof.
  intros Ga Gb Ra La Rb Lb F. unfold fermion_spinors in F. rewrite Ga, Gb in F. cbn [rbind] in F. rewrite Ra, Rb, La, Lb in F. cbn [need_r rbind] in F.
  destruct pos; [| |discriminate]; injection F as <- <-; unfold mcol, mrow; (destruct (Z.eqb_spec i 1); [|destruct (Z.eqb_spec i 2); [|intros Q; discriminate Q]]);
  intros [= <-] [= <-]; [left|left|right|right]; (split; [reflexivity|]); [left|right|left|right]; (split; [assumption|]); split; fvring.
Qed.
Lemma corner_two cv s a b p pa pb ra rb la lb : corner_sum cv s [a; b] = Ok p -> sound s ->
  getitem s a = Ok pa -> getitem s b = Ok pb ->
  r2 pa = outer (raise_r la) (raise_r ra) -> r2 pb = outer (raise_r lb) (raise_r rb) ->
  r2 p = madd (outer (raise_r la) (raise_r ra)) (outer (raise_r lb) (raise_r rb)) /\ r2b p = madd (outer ra la) (outer rb lb).
Proof.
  intros C S Ga Gb Ea Eb. apply corner_sum_spec in C as (M & _ & Cn & _). specialize (Cn S).
  assert (E : r2 p = madd (r2 pa) (r2 pb)).
  { unfold mom_sum, mom in M. cbn [rmapM] in M. rewrite Ga, Gb in M. cbn in M. injection M as M. rewrite <- M. destruct (r2 pa), (r2 pb). unfold madd, mzero. cbn. f_equal; ring. }
  rewrite (cons_r2b _ Cn), E, Ea, Eb. split; [reflexivity|]. fmring.
Qed.
Lemma fermion_dirac cv cs fs s t k pos i a b : cluster_fermions cv cs fs s = Ok t -> NoDup (map (fun f => fst (fst f)) fs) -> sound s ->
  In (k, pos, i) fs -> getitem cs k = Ok [a; b] -> massless_leg s a -> massless_leg s b ->
  exists m m' r l, c_A2 s a b = Ok m /\ c_S2 s b a = Ok m' /\
    compute t (IAd k) = Ok (VCol r) /\ compute t (ISu k) = Ok (VCol l) /\
    compute t (IAu k) = Ok (VRow (raise_r r)) /\ compute t (ISd k) = Ok (VRow (V2 (- e1 l) (e0 l))) /\
    compute t (IOpenBegin [leg k] k CAng) = Ok (VCol (vscale m l)) /\
    compute t (IOpenBegin [leg k] k CSq) = Ok (VCol (vscale m' r)) /\
    compute t (IOpenEnd OAng k [leg k]) = Ok (VRow (vscale (- m) (V2 (- e1 l) (e0 l)))) /\
    compute t (IOpenEnd OSq k [leg k]) = Ok (VRow (vscale (- m') (raise_r r))) /\
    compute t (IM k) = Ok (VS (m * m')) /\ c_S s [a; b] = Ok (m * m').
Proof.
  intros E ND S I G (pa & Ga & ra & la & Ra & La & Ba & Da & Ua & Va) (pb & Gb & rb & lb & Rb & Lb & Bb & Db & Ub & Vb).
  destruct (fermions_spec cv cs fs s t E ND) as (t0 & E0 & _ & H & _). specialize (H _ I). destruct H as (a' & b' & R & L & r & l & p & Gc & F & Er & El & Gp & Gt).
  rewrite G in Gc. injection Gc as <- <-.
  destruct (cluster_get cv cs s t0 k [a; b] E0 G) as (p' & Gp' & C). rewrite Gp in Gp'. injection Gp' as <-.
  destruct (corner_two cv s a b p pa pb ra rb la lb C S Ga Gb Da Db) as [P Pb].
  exists (vdot (raise_r ra) rb), (vdot lb (raise_r la)), r, (raise_r l).
  assert (QA : c_A2 s a b = Ok (vdot (raise_r ra) rb)) by (unfold c_A2; rewrite Ga, Gb; cbn; rewrite Ua, Rb; reflexivity).
  assert (QS : c_S2 s b a = Ok (vdot lb (raise_r la))) by (unfold c_S2; rewrite Ga, Gb; cbn; rewrite Va, Lb; reflexivity).
  split; [exact QA|]. split; [exact QS|]. unfold compute, c_open_begin, c_open_end, middle, entry_val, entry_rest, mid_rest, mom, leg. cbn [fst snd length].
  rewrite !Gt. cbn [rbind rmap need_r fermion_leg r_u r_d l_u l_d r2 r2b Nat.even Nat.odd negb].
  assert (X : mv (r2 p) r = vscale (vdot (raise_r ra) rb) (raise_r l) /\ mv (r2b p) (raise_r l) = vscale (vdot lb (raise_r la)) r /\
     vm (raise_r r) (r2b p) = vscale (- vdot (raise_r ra) rb) (V2 (- e1 (raise_r l)) (e0 (raise_r l))) /\
     vm l (r2 p) = vscale (- vdot lb (raise_r la)) (raise_r r)).
  { rewrite P, Pb. destruct (fermion_slices pos s a b R L i r l pa pb ra rb la lb Ga Gb Ra La Rb Lb F Er El)
      as [(-> & [(-> & -> & ->)|(-> & -> & ->)])|(-> & [(-> & -> & ->)|(-> & -> & ->)])]; repeat split; fvring. }
  destruct X as (X1 & X2 & X3 & X4). rewrite X1, X2, X3, X4.
  repeat (split; [reflexivity|]). split; [do 2 f_equal; unfold raise_r; destruct l; cbn; f_equal; ring|]. repeat (split; [reflexivity|]).
  assert (Q : c_S s [a; b] = Ok (vdot (raise_r ra) rb * vdot lb (raise_r la))).
  { unfold c_S. rewrite (mom_sum_2 false s a b pa pb Ga Gb). cbn [rbind]. rewrite Da, Db, det2_mdet. f_equal. unfold raise_r; unfold_vec; ring. }
  split; [|exact Q]. unfold c_S, mom_sum. cbn [rmapM]. unfold mom. rewrite Gt. cbn [rmap rbind]. f_equal. f_equal. rewrite det2_mdet. cbn [fermion_leg r2]. rewrite P.
  unfold raise_r; unfold_vec; cbn; ring.
Qed.
End Fermions.

Section Completeness.
Context {K : Fld}.
Open Scope fld_scope.
Implicit Types (s t : ps K) (p q : particle K).
Add Field Kcl3 : (fth K).
Ltac fmring := apply m2_ext; unfold adj, raise_r, cols, rows, LeviCivita in *; unfold_vec; cbn; ring.
Lemma all_complete cv s a b p F G m m' : sound s -> massless_leg s a -> massless_leg s b -> corner_sum cv s [a; b] = Ok p ->
  c_A2 s a b = Ok m -> c_S2 s b a = Ok m' ->
  spinors_all Up s a b = Ok F -> spinors_all Down s a b = Ok G ->
  mmul (f_rd F) (f_ld G) = r2b p /\ mmul (f_lu G) (f_ru F) = r2 p /\
  mmul (f_rd G) (f_ld F) = mopp (r2b p) /\ mmul (f_lu F) (f_ru G) = mopp (r2 p) /\
  mmul (f_ru F) (f_rd F) = mscale m LeviCivita /\ mmul (f_ru G) (f_rd G) = mscale m LeviCivita /\
  mmul (f_ld F) (f_lu F) = mscale (- m') LeviCivita /\ mmul (f_ld G) (f_lu G) = mscale (- m') LeviCivita.
Proof.
  intros S (pa & Ga & ra & la & Ra & La & Ba & Da & Ua & Va) (pb & Gb & rb & lb & Rb & Lb & Bb & Db & Ub & Vb) C.
  destruct (corner_two cv s a b p pa pb ra rb la lb C S Ga Gb Da Db) as [P Pb].
  unfold c_A2, c_S2. rewrite Ga, Gb. cbn [rbind]. rewrite Ua, Rb, Lb, Va. cbn. intros [= <-] [= <-].
  unfold spinors_all, fermion_spinors. rewrite Ga, Gb. cbn [rbind]. rewrite Ra, Rb, La, Lb. cbn [need_r rbind].
  intros [= <-] [= <-]. rewrite P, Pb. cbn [f_rd f_ld f_ru f_lu]. repeat split; fmring.
Qed.
(* an integer index value selects one column of |i>, |i] and one row of <i|, [i| *)
Lemma all_slices pos s a b F i r l : spinors_all pos s a b = Ok F ->
  (exists R L, fermion_spinors pos s a b = Ok (R, L) /\ mcol R i = Ok r /\ mrow L i = Ok l) <->
  mcol (f_rd F) i = Ok r /\ mrow (f_ru F) i = Ok (raise_r r) /\ mrow (f_ld F) i = Ok l /\ mcol (f_lu F) i = Ok (raise_r l).
Proof.
  unfold spinors_all. destruct (fermion_spinors pos s a b) as [[R L]|] eqn:E; [|discriminate]. cbn [rbind]. intros [= <-]. cbn [f_rd f_ld f_ru f_lu].
  split.
  - intros (R' & L' & [= <- <-] & Hr & Hl). unfold mcol, mrow in *.
    destruct (i =? 1)%Z; [|destruct (i =? 2)%Z; [|discriminate]]; injection Hr as <-; injection Hl as <-; repeat split; f_equal; apply v2_ext; unfold raise_r, LeviCivita; unfold_vec; cbn; ring.
  - intros (Hr & _ & Hl & _). exists R, L. auto.
Qed.
End Completeness.
