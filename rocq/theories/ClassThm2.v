(* Proofs about equivalence classes of ideals: permutations and stabilisers. *)
From Coq Require Import List ZArith Bool Lia Permutation Factorial Arith.
From Verif Require Import Base Fld Particle ParticleSpec Index Phase PhaseSpec IndexThm Symm SymmSpec SymmThm Compute ComputeSpec Str Gen GenThm2 Ideal IdealSpec IdealThm Class ClassSpec ClassThm.
Import ListNotations.
Open Scope Z_scope.

Lemma picks_length {A} (l : list A) : length (picks l) = length l.
Proof. rewrite <- (map_length fst), picks_fst. reflexivity. Qed.
Lemma perms_n_length {A} n : forall l : list A, length l = n -> length (perms_n n l) = fact n.
Proof.
  induction n as [|n IH]; intros l L; [reflexivity|]. cbn [perms_n].
  assert (G : forall ys : list (A * list A), (forall y, In y ys -> length (snd y) = n) -> length (flat_map (fun y => map (cons (fst y)) (perms_n n (snd y))) ys) = (length ys * fact n)%nat).
  { induction ys as [|y ys IHy]; intros H; [reflexivity|]. cbn [flat_map length]. rewrite app_length, map_length, IH, IHy by (intros; apply H; cbn; auto). lia. }
  rewrite G.
  - rewrite picks_length, L. cbn [fact]. lia.
  - intros y Hy. apply picks_In in Hy as (l1 & l2 & E & ->). rewrite E, app_length in L. cbn in L. rewrite app_length. lia.
Qed.
Lemma all_symmetries_length n : (n <= 9)%nat -> length (all_symmetries n) = fact n.
Proof.
  intros N. destruct (all_symmetries_spec n N) as [ND H].
  assert (P : Permutation (all_symmetries n) (map (fun p => (p, false)) (permutations (upto n)))).
  { apply NoDup_Permutation; [exact ND| |].
    - apply FinFun.Injective_map_NoDup; [intros a b E; injection E; auto|]. apply permutations_NoDup, upto_NoDup.
    - intros [p b]. rewrite H, in_map_iff. split.
      + intros [Pe ->]. exists p. split; [reflexivity|]. apply permutations_In. exact Pe.
      + intros (q & E & I). injection E as -> <-. apply permutations_In in I. auto. }
  rewrite (Permutation_length P), map_length. unfold permutations. rewrite upto_length. apply perms_n_length, upto_length.
Qed.
Lemma perms_head {A} n : forall l : list A, length l = n -> exists t, perms_n n l = l :: t.
Proof.
  induction n as [|n IH]; intros [|x l] L; try discriminate; cbn [perms_n]; [eauto|]. cbn [picks flat_map fst snd]. injection L as L. destruct (IH l L) as (t & ->). cbn [map app]. eauto.
Qed.
Lemma papp_ids n : (n <= 9)%nat -> exists l, all_symmetries n = (upto n, false) :: l.
Proof.
  intros N. unfold all_symmetries, phase_weights_compatible_symmetries. rewrite repeat_length. unfold permutations. rewrite upto_length. destruct (perms_head n (upto n) (upto_length n)) as (t & ->). cbn [filter_some].
  unfold compatible at 1. rewrite permuted_zero by apply Permutation_refl. unfold Symm.zlist_eqb. destruct (list_eq_dec Z.eq_dec (repeat 0 n) (repeat 0 n)) as [_|C]; [|contradiction]. cbn [map fst snd]. rewrite (join_perm n) by (try assumption; apply Permutation_refl). eauto.
Qed.

Section Act.
Variable n : nat.
Hypothesis N9 : (n <= 9)%nat.
Notation dom := (in_components n).
Definition act (p : list Z) (es : list poly) : list poly := map (ren (cov_var p false)) es.
Lemma act_image p es : is_perm n p -> dom es -> lips_image (map text es) (p, false) = Ok (map text (act p es)).
Proof.
  intros P D. unfold lips_image, act. rewrite map_map. induction es as [|e es IH]; [reflexivity|]. inv D. destruct H1 as [S V]. cbn [map rmapM].
  rewrite (cov_image_text n p false e N9 P V (sum_nonneg e S)). cbn [rbind]. rewrite IH by assumption. reflexivity.
Qed.
Lemma act_dom p es : is_perm n p -> dom es -> dom (act p es).
Proof.
  intros P D. unfold act. apply Forall_map. eapply Forall_impl; [|exact D]. intros e [S V].
  destruct (Nat.eq_dec n 0) as [->|N0].
  - split.
    + rewrite (ren_ext (covariant_var (Z.of_nat 0)) _ (fun c i => Var c (Z.abs i)) _ V); [apply ren_sum; [intros; constructor; lia|exact S]|]. intros c i [_ H]. cbn in H. lia.
    + apply (vars_ren _ _ _ _ V). intros c i [_ H]. cbn in H. lia.
  - destruct (covariant_ok n p false e ltac:(lia) P S V) as (e' & E & S' & V' & _).
    clear E S' V' e'. split.
    + rewrite (ren_ext (covariant_var (Z.of_nat n)) _ (fun c i => Var c (if 1 <=? i then Z.abs (papp p i) else 0)) _ V).
      * apply ren_sum; [|exact S]. intros c i _. constructor. destruct (1 <=? i); lia.
      * intros c i [_ Hi]. unfold cov_var. rewrite (proj2 (Z.leb_le 1 i)) by lia. f_equal. assert (R := papp_range n p i P Hi). lia.
    + apply (vars_ren _ _ _ _ V). intros c i [Hc Hi]. cbn. assert (R := papp_range n p i P Hi). split; assumption.
Qed.
Lemma act_act p q es : is_perm n p -> is_perm n q -> act p (act q es) = act (compose p q) es.
Proof.
  intros P Q. unfold act. rewrite map_map. apply map_ext. intros e. rewrite ren_ren.
  assert (G : forall f g : Z -> Z -> poly, (forall c i, f c i = g c i) -> ren f e = ren g e) by (intros f g H; induction e; cbn [ren]; congruence).
  apply G. intros c i. unfold cov_var. cbn [ren]. rewrite (papp_compose n p q i P Q). reflexivity.
Qed.
Lemma act_id es : act (upto n) es = es.
Proof.
  unfold act. rewrite <- (map_id es) at 2. apply map_ext. intros e.
  induction e; cbn [ren]; try congruence. unfold cov_var. rewrite papp_upto. reflexivity.
Qed.
Lemma compose_id_r p : is_perm n p -> compose p (upto n) = p.
Proof.
  intros P. apply (papp_ext n); [apply is_perm_length, compose_perm; [exact P|apply Permutation_refl]|apply is_perm_length, P|].
  intros k. rewrite (papp_compose n p _ k P (Permutation_refl _)), papp_upto. reflexivity.
Qed.
Lemma compose_assoc p q r : is_perm n p -> is_perm n q -> is_perm n r -> compose p (compose q r) = compose (compose p q) r.
Proof.
  intros P Q R. apply (papp_ext n); [apply is_perm_length; repeat apply compose_perm; assumption..|].
  intros k. rewrite !(papp_compose n) by (try assumption; apply compose_perm; assumption). reflexivity.
Qed.
Lemma compose_id_l p : is_perm n p -> compose (upto n) p = p.
Proof.
  intros P. apply (papp_ext n); [apply is_perm_length, compose_perm; [apply Permutation_refl|exact P]|apply is_perm_length, P|].
  intros k. rewrite (papp_compose n _ p k (Permutation_refl _) P), papp_upto. reflexivity.
Qed.
Lemma inverse_perm p : is_perm n p -> exists q, is_perm n q /\ compose q p = upto n /\ compose p q = upto n.
Proof. intros P. destruct (inverse_compose n p N9 P) as (q & _ & H). eauto. Qed.

Variable ieq : list pystr -> list pystr -> bool.
Hypothesis Eq : equivalence ieq.
Section Fixed.
Variable es : list poly.
Hypothesis D : dom es.
Definition tagged : list (rule * list pystr) := map (fun r => (r, map text (act (fst r) es))) (all_symmetries n).
Lemma tagged_fst : map fst tagged = all_symmetries n.
Proof. unfold tagged. rewrite map_map. cbn [fst]. apply map_id. Qed.
Lemma tagged_In r I : In (r, I) tagged <-> (is_perm n (fst r) /\ snd r = false) /\ I = map text (act (fst r) es).
Proof.
  unfold tagged. rewrite in_map_iff. destruct r as [p b]. split.
  - intros (r' & E & J). injection E as -> <-. apply all_symmetries_spec in J; [|exact N9]. auto.
  - intros [[P E] ->]. exists (p, b). split; [reflexivity|]. apply all_symmetries_spec; auto.
Qed.
Lemma all_perms_ok : all_perms (map text es) n = Ok tagged.
Proof.
  unfold all_perms. rewrite (GenThm2.rmapM_map _ (fun r => (r, map text (act (fst r) es)))).
  - cbn [rbind]. f_equal. apply kset_all. change (NoDup (map fst tagged)). rewrite tagged_fst. apply all_symmetries_spec, N9.
  - intros [p b] I. apply all_symmetries_spec in I as [P ->]; [|exact N9]. rewrite act_image by assumption. reflexivity.
Qed.
Lemma class_firsts : equivalence_class ieq (map text es) n = Ok (firsts ieq tagged).
Proof.
  unfold equivalence_class. rewrite all_perms_ok. cbn [rbind]. unfold first_keys, value_to_keys. rewrite (groups ieq Eq).
  set (l := tagged). rewrite <- (map_id (firsts ieq l)) at 2.
  assert (G : rmapM (fun vk => match snd vk with [] => Err IndexError | k :: _ => Ok (k, fst vk) end) (map (fun x => (snd x, keys_of ieq l x)) (firsts ieq l)) = Ok (firsts ieq l)).
  { assert (S : forall F, incl F (firsts ieq l) -> rmapM (fun vk => match snd vk with [] => Err IndexError | k :: _ => Ok (k, fst vk) end) (map (fun x => (snd x, keys_of ieq l x)) F) = Ok F); [|apply S, incl_refl].
    induction F as [|x F IH]; intros H; [reflexivity|]. cbn [map rmapM snd fst]. destruct (keys_first ieq Eq l x (H x (or_introl eq_refl))) as (t & ->). cbn [rbind].
    rewrite IH by (intros y Iy; apply H; right; exact Iy). cbn [rmap]. destruct x; reflexivity. }
  rewrite G. cbn [rbind]. rewrite map_id. f_equal. apply kset_all. apply firsts_keys. unfold l. rewrite tagged_fst. apply all_symmetries_spec, N9.
Qed.
Theorem classes : exists L, equivalence_class ieq (map text es) n = Ok L /\ apart ieq L /\
  (forall r I, In (r, I) L -> (exists p, r = (p, false) /\ is_perm n p) /\ lips_image (map text es) r = Ok I) /\
  (forall p J, is_perm n p -> lips_image (map text es) (p, false) = Ok J -> exists r I, In (r, I) L /\ ieq I J = true) /\
  (forall r I, In (r, I) L -> exists l1 l2, all_symmetries n = l1 ++ r :: l2 /\ forall q J, In q l1 -> lips_image (map text es) q = Ok J -> ieq I J = false).
Proof.
  exists (firsts ieq tagged). split; [apply class_firsts|]. split; [apply firsts_apart|]. split; [|split].
  - intros r I H. apply firsts_incl, tagged_In in H. destruct H as [[P E] ->]. destruct r as [p b]. cbn [fst snd] in *. subst b. split; [eauto|]. apply act_image; assumption.
  - intros p J P E. rewrite act_image in E by assumption. injection E as <-. destruct (firsts_cover ieq Eq tagged ((p, false), map text (act p es))) as ([r I] & H & H'); [apply tagged_In; auto|]. exists r, I. auto.
  - intros r I H. destruct (firsts_first ieq Eq tagged (r, I) H) as (l1 & l2 & E & F). exists (map fst l1), (map fst l2). split.
    + rewrite <- tagged_fst, E, map_app. reflexivity.
    + intros q J Iq Ej. apply in_map_iff in Iq as ([q' J'] & <- & Iq). assert (T : In (q', J') tagged) by (rewrite E; apply in_or_app; left; exact Iq).
      apply tagged_In in T as [[P Eb] ->]. cbn [fst] in Ej. destruct q' as [q b]. cbn [fst snd] in *. subst b. rewrite act_image in Ej by assumption. injection Ej as <-. exact (F _ Iq).
Qed.
Theorem class_of_itself : exists L, equivalence_class ieq (map text es) n = Ok (((upto n, false), map text es) :: L).
Proof.
  rewrite class_firsts. destruct (papp_ids n N9) as (l & E). assert (T : exists l', tagged = ((upto n, false), map text es) :: l') by (unfold tagged; rewrite E; cbn [map fst]; rewrite act_id; eauto).
  destruct T as (l' & ->). destruct (firsts_head ieq (((upto n, false), map text es) : rule * list pystr) l') as (F & E'). exists F. f_equal. exact E'.
Qed.
(* ---- stabilisers ---- *)
Hypothesis Resp : respects_images n ieq.
Lemma Cong p es1 es2 : is_perm n p -> dom es1 -> dom es2 -> ieq (map text es1) (map text es2) = true -> ieq (map text (act p es1)) (map text (act p es2)) = true.
Proof. intros P D1 D2 E. exact (Resp p es1 es2 _ _ P D1 D2 E (act_image p es1 P D1) (act_image p es2 P D2)). Qed.
Definition fixes (r : rule) : bool := match lips_image (map text es) r with Ok J => ieq J (map text es) | Err _ => false end.
Lemma class_size p : is_perm n p -> length (filter (fun y => ieq (map text (act p es)) (snd y)) tagged) = length (filter fixes (all_symmetries n)).
Proof.
  intros P. destruct Eq as (Er & Es & Et).
  assert (ND : NoDup (all_symmetries n)) by (apply all_symmetries_spec, N9).
  assert (E : length (filter (fun y => ieq (map text (act p es)) (snd y)) tagged) = length (filter (fun r => ieq (map text (act p es)) (map text (act (fst r) es))) (all_symmetries n))).
  { unfold tagged. induction (all_symmetries n) as [|r l IH]; [reflexivity|]. inv ND. cbn [map filter snd]. destruct (ieq _ _); cbn [length]; rewrite IH by assumption; reflexivity. }
  rewrite E. assert (Pm : Permutation (filter (fun r => ieq (map text (act p es)) (map text (act (fst r) es))) (all_symmetries n)) (map (fun r => (compose p (fst r), false)) (filter fixes (all_symmetries n)))).
  { apply NoDup_Permutation.
    - apply NoDup_filter, ND.
    - assert (Fi : forall x, In x (filter fixes (all_symmetries n)) -> is_perm n (fst x) /\ snd x = false) by (intros [q b] I; apply filter_In in I as [I _]; apply all_symmetries_spec in I; [exact I|exact N9]).
      assert (NF : NoDup (filter fixes (all_symmetries n))) by (apply NoDup_filter, ND). revert Fi NF. generalize (filter fixes (all_symmetries n)). induction l as [|[q b] l IH]; intros Fi NF; [constructor|]. inv NF. cbn [map]. constructor.
      + intros I. apply in_map_iff in I as ([q' b'] & Ec & I). cbn [fst] in Ec. injection Ec as Ec. apply H1.
        destruct (Fi (q, b) (or_introl eq_refl)) as [Q B], (Fi (q', b') (or_intror I)) as [Q' B']. cbn [fst snd] in *. subst b b'.
        assert (q' = q); [|subst; exact I]. destruct (inverse_perm p P) as (ip & Pi & C & _).
        rewrite <- (compose_id_l q Q), <- (compose_id_l q' Q'), <- C, <- !compose_assoc by assumption. congruence.
      + apply IH; [intros x I; apply Fi; right; exact I|assumption].
    - intros [q b]. rewrite filter_In, in_map_iff. cbn [fst]. split.
      + intros [I H]. apply all_symmetries_spec in I as [Q ->]; [|exact N9]. destruct (inverse_perm p P) as (ip & Pi & C & C').
        exists (compose ip q, false). cbn [fst]. split; [rewrite compose_assoc, C', compose_id_l by assumption; reflexivity|]. apply filter_In. split; [apply all_symmetries_spec; [exact N9|]; split; [apply compose_perm; assumption|reflexivity]|].
        unfold fixes. rewrite act_image by (try assumption; apply compose_perm; assumption). apply Es.
        rewrite <- (act_id es) at 1. rewrite <- C, <- !act_act by assumption. apply Cong; [assumption|apply act_dom; assumption..|exact H].
      + intros ([r b'] & E' & I). cbn [fst] in E'. injection E' as <- <-. apply filter_In in I as [I H]. apply all_symmetries_spec in I as [R ->]; [|exact N9].
        split; [apply all_symmetries_spec; [exact N9|]; split; [apply compose_perm; assumption|reflexivity]|].
        unfold fixes in H. rewrite act_image in H by assumption. rewrite <- act_act by assumption. apply Es. apply Cong; [assumption|apply act_dom; assumption|assumption|exact H]. }
  rewrite (Permutation_length Pm), map_length. reflexivity.
Qed.
Theorem orbit_stabiliser : exists L, equivalence_class ieq (map text es) n = Ok L /\ (length L * length (filter fixes (all_symmetries n)))%nat = fact n.
Proof.
  exists (firsts ieq tagged). split; [apply class_firsts|]. transitivity (length tagged); [|rewrite <- (all_symmetries_length n N9), <- tagged_fst, map_length; reflexivity].
  rewrite (count_classes ieq Eq tagged). assert (G : forall F, incl F tagged -> (length F * length (filter fixes (all_symmetries n)))%nat = list_sum (map (fun x => length (filter (fun y => ieq (snd x) (snd y)) tagged)) F)).
  { induction F as [|x F IH]; intros H; [reflexivity|]. cbn [length map]. change (list_sum (?u :: ?t)) with (u + list_sum t)%nat. rewrite <- IH by (intros y Iy; apply H; right; exact Iy).
    destruct x as [r I]. assert (J := H _ (or_introl eq_refl)). apply tagged_In in J as [[P _] ->]. cbn [snd]. rewrite class_size by exact P. lia. }
  apply G, firsts_incl.
Qed.
Lemma fixes_ok (r : rule) : fixes r = true <-> exists J, lips_image (map text es) r = Ok J /\ ieq J (map text es) = true.
Proof. unfold fixes. destruct (lips_image (map text es) r) as [J|]; split; try discriminate; [eauto| |]; intros (J' & E & H); [injection E as ->; exact H|discriminate]. Qed.
Theorem orbit_count (S : list (list Z)) : NoDup S -> (forall p, In p S <-> is_perm n p /\ exists J, lips_image (map text es) (p, false) = Ok J /\ ieq J (map text es) = true) ->
  exists L, equivalence_class ieq (map text es) n = Ok L /\ (length L * length S)%nat = fact n.
Proof.
  intros ND H. destruct orbit_stabiliser as (L & E & C). exists L. split; [exact E|]. rewrite <- C. f_equal.
  transitivity (length (map (fun p => (p, false)) S)); [rewrite map_length; reflexivity|]. apply Permutation_length, NoDup_Permutation.
  - apply FinFun.Injective_map_NoDup; [intros a b Q; injection Q; auto|exact ND].
  - apply NoDup_filter, all_symmetries_spec, N9.
  - intros [p b]. rewrite in_map_iff, filter_In, (proj2 (all_symmetries_spec n N9)). split.
    + intros (q & Q & I). injection Q as -> <-. apply H in I as (P & J). split; [auto|]. apply fixes_ok, J.
    + intros [[P ->] F]. exists p. split; [reflexivity|]. apply H. split; [exact P|]. apply fixes_ok in F. exact F.
Qed.
End Fixed.
(* ---- points ---- *)
Section Union.
Context {K : Fld}.
Hypothesis N0 : (0 < n)%nat.
Variable es : list poly.
Hypothesis D : dom es.
Hypothesis Sound : respects_zeros n K ieq.
Notation on_union := (on_union n).
Lemma act_point p (s s' : ps K) (d : dict K) es' : is_perm n p -> dom es' -> length s = n -> different s -> sound s -> Forall plain s -> image (p, false) s = Ok s' -> analytical_subs_d s = Ok d -> zeros d es' ->
  exists d', analytical_subs_d s' = Ok d' /\ zeros d' (act p es').
Proof.
  intros P De L Di So Pl I Ed Z. destruct (cov_points n p false s s' d N0 P L Di So Pl I Ed) as (d' & Ed' & H). exists d'. split; [exact Ed'|]. unfold zeros, act. apply Forall_map.
  apply Forall_forall. intros e Ie. destruct (proj1 (Forall_forall _ _) De e Ie) as [S V]. rewrite <- (proj1 (Forall_forall _ _) Z e Ie). apply (value_ren _ _ _ _ _ V). intros c i Hci. apply H, Hci.
Qed.
Theorem union_invariant L p (s s' : ps K) : equivalence_class ieq (map text es) n = Ok L -> is_perm n p -> length s = n -> different s -> sound s -> Forall plain s -> image (p, false) s = Ok s' ->
  on_union L s -> on_union L s'.
Proof.
  intros EL P Ls Di So Pl I (r & ts & d & J & Ed & es' & -> & De & Z). rewrite class_firsts in EL by exact D. injection EL as <-.
  assert (J' := firsts_incl ieq (tagged es) _ J). apply tagged_In in J' as [[R _] Et]. assert (Dr := act_dom (fst r) es R D).
  destruct (act_point p s s' d _ P De Ls Di So Pl I Ed Z) as (d' & Ed' & Z2).
  assert (Et' : map text (act p es') = map text (act (compose p (fst r)) es)).
  { assert (A := act_image p es' P De). rewrite Et, (act_image p _ P Dr) in A. injection A as A. rewrite <- A, act_act by assumption. reflexivity. }
  assert (Pc := compose_perm n p (fst r) P R).
  destruct (firsts_cover ieq Eq (tagged es) ((compose p (fst r), false), map text (act (compose p (fst r)) es))) as ([r2 I2] & J2 & E2); [apply tagged_In; auto|]. cbn [snd] in E2.
  assert (J3 := firsts_incl ieq (tagged es) _ J2). apply tagged_In in J3 as [[R2 _] ->]. exists r2, (map text (act (fst r2) es)), d'. split; [exact J2|]. split; [exact Ed'|].
  apply (Sound (act (compose p (fst r)) es)); [apply act_dom; assumption..|apply (ClassThm.sym ieq Eq), E2|].
  exists (act p es'). split; [symmetry; exact Et'|]. split; [apply act_dom; assumption|exact Z2].
Qed.
End Union.
End Act.
