(* Proofs about images of polynomials in the invariants. *)
From Coq Require Import Ascii String.
From Coq Require Import List ZArith Bool Lia Permutation Field.
From Verif Require Import Base Fld Particle ParticleSpec ParticleThm Index IndexThm Phase PhaseSpec PhaseThm Compute ComputeSpec ComputeThm ComputeThm4 Symm SymmSpec SymmThm Str MassesThm Gen GenThm GenThm2 Parse ParseText Ideal IdealSpec IdealThm.
From Verif Require TwistorThm.
Import ListNotations.
Open Scope Z_scope.

(* ---- pairs ---- *)
Lemma comb1 {A} (l : list A) : combinations 1 l = map (fun x => [x]) l.
Proof. induction l as [|x l IH]; [reflexivity|]. change (combinations 1 (x :: l)) with (map (cons x) (combinations 0 l) ++ combinations 1 l). rewrite IH. destruct l; reflexivity. Qed.
Lemma pairs_triu_from a b : combinations 2 (zrange (a + 1) (b + 1)) = map (fun ij => [fst ij + 1; snd ij + 1]) (flat_map (fun i => map (pair i) (zrange (i + 1) b)) (zrange a b)).
Proof.
  remember (Z.to_nat (b - a)) as k eqn:E. revert a E. induction k as [|k IH]; intros a E.
  - rewrite !zrange_nil by lia. reflexivity.
  - rewrite (zrange_cons (a + 1) (b + 1)), (zrange_cons a b) by lia. cbn [flat_map]. rewrite map_app. change (combinations 2 (a + 1 :: zrange (a + 1 + 1) (b + 1))) with (map (cons (a + 1)) (combinations 1 (zrange (a + 1 + 1) (b + 1))) ++ combinations 2 (zrange (a + 1 + 1) (b + 1))).
    rewrite (IH (a + 1)) by lia. f_equal. rewrite comb1, !map_map. cbn [fst snd]. unfold zrange. rewrite !map_map. replace (b + 1 - (a + 1 + 1)) with (b - (a + 1)) by lia. apply map_ext. intros j. do 2 f_equal. lia.
Qed.
Lemma pairs_triu n : pairs n = map (fun ij => [fst ij + 1; snd ij + 1]) (triu n).
Proof. unfold pairs, indices, triu. exact (pairs_triu_from 0 n). Qed.
Lemma triu_In n i j : In (i, j) (triu n) <-> 0 <= i < j /\ j < n.
Proof.
  unfold triu. rewrite in_flat_map. split.
  - intros (k & Hk & H). apply in_map_iff in H. destruct H as (l & E & Hl). injection E as <- <-. apply zrange_In in Hk, Hl. lia.
  - intros H. exists i. split; [apply zrange_In; lia|]. apply in_map_iff. exists j. split; [reflexivity|apply zrange_In; lia].
Qed.
Lemma pairs_In n i j : In [i; j] (pairs n) <-> 1 <= i < j /\ j <= n.
Proof.
  rewrite pairs_triu, in_map_iff. split.
  - intros ([a b] & E & H). cbn [fst snd] in E. apply triu_In in H. assert (i = a + 1 /\ j = b + 1) by (split; congruence). lia.
  - intros H. exists (i - 1, j - 1). cbn [fst snd]. split; [do 2 f_equal; [|f_equal]; lia|apply triu_In; lia].
Qed.
Lemma comb2_length {A} (l : list A) : 2 * Z.of_nat (length (combinations 2 l)) = Z.of_nat (length l) * (Z.of_nat (length l) - 1).
Proof.
  induction l as [|x l IH]; [reflexivity|]. change (combinations 2 (x :: l)) with (map (cons x) (combinations 1 l) ++ combinations 2 l). rewrite app_length, comb1, !map_length. cbn [length]. lia.
Qed.
Lemma pairs_length n : 0 <= n -> Z.of_nat (length (pairs n)) = n * (n - 1) / 2.
Proof.
  intros H. assert (E := comb2_length (indices n)). unfold pairs. unfold indices in *. rewrite zrange_len in E by lia. apply (Z.div_unique_exact (n * (n - 1)) 2); lia.
Qed.
Lemma zlist_eqb_ok a b : zlist_eqb a b = true <-> a = b.
Proof. destruct (zlist_eqb_spec a b) as [->|N]; split; intros H; try reflexivity; [discriminate H|contradiction]. Qed.
Lemma pos_ok p l : match pos p l with Some k => 0 <= k /\ nth_error l (Z.to_nat k) = Some p | None => ~ In p l end.
Proof.
  induction l as [|q l IH]; [exact (fun H => H)|]. cbn [pos]. destruct (zlist_eqb p q) eqn:E.
  - apply zlist_eqb_ok in E. subst. split; [lia|reflexivity].
  - assert (N : p <> q) by (intros X; apply zlist_eqb_ok in X; congruence). destruct (pos p l) as [k|]; cbn [option_map].
    + split; [lia|]. replace (Z.to_nat (Z.succ k)) with (S (Z.to_nat k)) by lia. apply IH.
    + intros [X|X]; [congruence|contradiction].
Qed.
Lemma pair_number_ok n a b : 1 <= a <= n -> 1 <= b <= n -> a <> b ->
  exists k, 0 <= k /\ ((a < b /\ nth_error (pairs n) (Z.to_nat k) = Some [a; b] /\ pair_number n a b = k + 1) \/ (b < a /\ nth_error (pairs n) (Z.to_nat k) = Some [b; a] /\ pair_number n a b = - (k + 1))).
Proof.
  intros Ha Hb N. unfold pair_number. assert (P1 := pos_ok [a; b] (pairs n)). assert (P2 := pos_ok [b; a] (pairs n)). destruct (pos [a; b] (pairs n)) as [k|].
  - exists k. split; [lia|]. left. destruct P1 as [_ E]. split; [|auto]. apply nth_error_In, pairs_In in E. lia.
  - assert (L : b < a) by (destruct (Z.lt_trichotomy a b) as [X|[X|X]]; [exfalso; apply P1, pairs_In; lia|lia|exact X]). destruct (pos [b; a] (pairs n)) as [k|].
    + exists k. split; [lia|]. right. tauto.
    + exfalso. apply P2, pairs_In. lia.
Qed.
Lemma py_nth_map {A B} (f : A -> B) l i : py_nth (map f l) i = rmap f (py_nth l i).
Proof. unfold py_nth. rewrite map_length. destruct (_ <? 0); [reflexivity|]. rewrite nth_error_map. destruct (nth_error l _); reflexivity. Qed.
Lemma indices_nth n i : 1 <= i <= n -> py_nth (indices n) (i - 1) = Ok i.
Proof.
  intros H. apply py_nth_ok; [lia|]. unfold indices, zrange. rewrite nth_error_map, TwistorThm.nth_error_seq by lia. cbn [option_map]. f_equal. lia.
Qed.
Section Perm.
Variables (n : nat) (perm : pstring).
Hypothesis P : is_perm n perm.
Notation zn := (Z.of_nat n).
Lemma perm_range : Forall (fun d => 1 <= d <= zn) perm.
Proof. apply Forall_forall. intros d I. apply (Permutation_in _ P) in I. unfold upto in I. apply in_map_iff in I. destruct I as (k & <- & I). apply in_seq in I. lia. Qed.
Lemma signed_ok : signed_permutation_2d perm = Ok (map (fun ij => pair_number zn (papp perm (fst ij + 1)) (papp perm (snd ij + 1))) (triu zn)).
Proof.
  unfold signed_permutation_2d. rewrite (is_perm_length n perm P).
  assert (G : forall {B} (f : Z -> B), rmapM (py_nth (map f (indices zn))) (map (fun entry => entry - 1) perm) = Ok (map f perm)).
  { intros B f. assert (F := perm_range). clear P. induction F as [|d l Hd _ IH]; [reflexivity|]. cbn [map rmapM]. rewrite py_nth_map, indices_nth by exact Hd. cbn [rmap rbind]. rewrite IH. reflexivity. }
  unfold indices_2d. rewrite G. cbn [rbind].
  assert (M : rmapM (fun row => rmapM (py_nth row) (map (fun entry => entry - 1) perm)) (map (fun i => map (fun j => pair_number zn i j) (indices zn)) perm) = Ok (map (fun i => map (fun j => pair_number zn i j) perm) perm)).
  { assert (H : forall l, rmapM (fun row => rmapM (py_nth row) (map (fun entry => entry - 1) perm)) (map (fun i => map (fun j => pair_number zn i j) (indices zn)) l) = Ok (map (fun i => map (fun j => pair_number zn i j) perm) l)); [|apply H].
    induction l as [|d l IH]; [reflexivity|]. cbn [map rmapM]. rewrite G. cbn [rbind]. rewrite IH. reflexivity. }
  rewrite M. cbn [rbind]. apply rmapM_map. intros [i j] I. apply triu_In in I. cbn [fst snd].
  assert (Q : forall k, 0 <= k < zn -> py_nth perm k = Ok (papp perm (k + 1))). { intros k Hk. apply py_nth_ok; [lia|]. replace k with (k + 1 - 1) at 1 by lia. apply papp_in. rewrite (is_perm_length n perm P). lia. }
  rewrite py_nth_map, Q by lia. cbn [rmap rbind]. rewrite py_nth_map, Q by lia. reflexivity.
Qed.
Lemma signed_nth k i j : 0 <= k -> nth_error (pairs zn) (Z.to_nat k) = Some [i; j] -> exists S, signed_permutation_2d perm = Ok S /\ py_nth S k = Ok (pair_number zn (papp perm i) (papp perm j)).
Proof.
  intros Hk E. eexists. split; [apply signed_ok|]. rewrite pairs_triu, nth_error_map in E. destruct (nth_error (triu zn) (Z.to_nat k)) as [[a b]|] eqn:T; [|discriminate E]. cbn [option_map fst snd] in E.
  rewrite py_nth_map, (py_nth_ok _ k (a, b) Hk T). cbn [rmap fst snd]. assert (a + 1 = i /\ b + 1 = j) as [-> ->] by (split; congruence). reflexivity.
Qed.
End Perm.
(* ---- the substitution ---- *)
Section Sub.
Variable signed : list Z.
Definition svar (c i : Z) : poly := match py_nth signed (i - 1) with Ok z => if 0 <? z then Var c (Z.abs z) else Par (Neg (Var c (Z.abs z))) | Err _ => Var c i end.
Definition stop (r : pystr) : Prop := match r with [] => True | c :: _ => is_digit c = false end.
Lemma sub_skip u : forall r, inv_sub signed (length u) (u ++ r) = inv_sub signed 0 r.
Proof. induction u as [|c u IH]; intros r; [reflexivity|]. cbn [length app inv_sub]. apply IH. Qed.
Lemma sub_plain u : forall r, Forall (fun c => is_AB c = false) u -> inv_sub signed 0 (u ++ r) = rmap (app u) (inv_sub signed 0 r).
Proof.
  induction u as [|c u IH]; intros r F; [cbn [app]; destruct (inv_sub signed 0 r); reflexivity|]. inv F. cbn [app inv_sub]. rewrite H1. cbn [andb]. rewrite IH by assumption. destruct (inv_sub signed 0 r); reflexivity.
Qed.
Lemma dec_plain k : 0 <= k -> Forall (fun c => is_AB c = false) (dec k).
Proof. intros H. eapply Forall_impl; [|exact (dec_numeric k H)]. intros c Hc. cbv beta in Hc. unfold is_digit, is_AB in *. lia. Qed.
Lemma rmap_app (u v : pystr) (x : result pystr) : rmap (app u) (rmap (app v) x) = rmap (app (u ++ v)) x.
Proof. destruct x; cbn; [rewrite app_assoc|]; reflexivity. Qed.
Lemma rmap_app1 (c : Z) (v : pystr) (x : result pystr) : rmap (cons c) (rmap (app v) x) = rmap (app (c :: v)) x.
Proof. destruct x; reflexivity. Qed.
Lemma sub_one c r : is_AB c = false -> inv_sub signed 0 (c :: r) = rmap (cons c) (inv_sub signed 0 r).
Proof. intros H. cbn [inv_sub]. rewrite H. reflexivity. Qed.
Definition svars : Z -> Z -> Prop := fun c i => (c = 65 \/ c = 66) /\ 0 <= i /\ exists z, py_nth signed (i - 1) = Ok z.
Lemma sub_text e : vars svars e -> nonneg e -> forall r, stop r -> inv_sub signed 0 (text e ++ r) = rmap (app (text (ren svar e))) (inv_sub signed 0 r).
Proof.
  induction e as [k|c i|a IH|st a IH k|a IH|a IHa b IHb|a IHa b IHb|a IHa b IHb]; cbn [vars nonneg text ren]; intros V W r St.
  - apply sub_plain, dec_plain, W.
  - destruct V as (Hc & Hi & z & Ez). cbn [app inv_sub]. rewrite (digits_app (dec i) r) by (try apply dec_numeric; assumption). assert (A : is_AB c = true) by (unfold is_AB; lia). rewrite A. destruct (dec_cons i Hi) as (d & ds & Ed). assert (L : negb (length (dec i) =? 0)%nat = true) by (rewrite Ed; reflexivity). rewrite L. cbn [andb].
    rewrite number_dec, Ez by exact Hi. cbn [rbind]. rewrite sub_skip. unfold svar. rewrite Ez. destruct (0 <? z); reflexivity.
  - cbn [app]. rewrite sub_one by reflexivity. rewrite <- app_assoc. rewrite IH by (auto; reflexivity). cbn [app]. rewrite sub_one by reflexivity. change (rmap (cons 41) ?x) with (rmap (app [41]) x). rewrite rmap_app, rmap_app1. reflexivity.
  - rewrite <- !app_assoc. assert (Z : stop ((if st then [42; 42] else [94]) ++ dec k ++ r)) by (destruct st; reflexivity). rewrite IH by tauto.
    rewrite (app_assoc _ (dec k)), sub_plain; [|apply Forall_app; split; [destruct st; repeat constructor|apply dec_plain; tauto]]. rewrite rmap_app. reflexivity.
  - cbn [app]. rewrite sub_one by reflexivity. rewrite IH by auto. rewrite rmap_app1. reflexivity.
  - rewrite <- app_assoc. cbn [app]. rewrite IHa by (tauto || reflexivity). rewrite sub_one, IHb by (tauto || reflexivity). rewrite rmap_app1, rmap_app. reflexivity.
  - rewrite <- app_assoc. cbn [app]. rewrite IHa by (tauto || reflexivity). rewrite sub_one, IHb by (tauto || reflexivity). rewrite rmap_app1, rmap_app. reflexivity.
  - rewrite <- app_assoc. cbn [app]. rewrite IHa by (tauto || reflexivity). rewrite sub_one, IHb by (tauto || reflexivity). rewrite rmap_app1, rmap_app. reflexivity.
Qed.
End Sub.
Lemma ren_nonneg f e : nonneg e -> (forall c i, 0 <= i -> nonneg (f c i)) -> nonneg (ren f e).
Proof. intros W H. induction e; cbn [ren nonneg] in *; try tauto; auto. Qed.
Lemma pair_of n i : 0 <= n -> 1 <= i <= n * (n - 1) / 2 -> exists a b, nth_error (pairs n) (Z.to_nat (i - 1)) = Some [a; b] /\ 1 <= a < b /\ b <= n.
Proof.
  intros Hn Hi. rewrite <- pairs_length in Hi by exact Hn. destruct (nth_error (pairs n) (Z.to_nat (i - 1))) as [q|] eqn:E.
  - assert (E' := E). rewrite pairs_triu, nth_error_map in E'. destruct (nth_error (triu n) _) as [[a b]|]; [|discriminate E']. cbn [option_map fst snd] in E'. assert (q = [a + 1; b + 1]) by congruence. subst q. exists (a + 1), (b + 1). split; [reflexivity|]. apply nth_error_In, pairs_In in E. exact E.
  - apply nth_error_None in E. lia.
Qed.
Definition inv_var (signed : list Z) (conj : bool) (c i : Z) : poly := ren (fun c i => Var (if conj then swap_AB c else c) i) (svar signed c i).
Lemma signed_var n perm signed c i : is_perm n perm -> signed_permutation_2d perm = Ok signed -> invariant_var (Z.of_nat n) c i ->
  exists a b k, nth_error (pairs (Z.of_nat n)) (Z.to_nat (i - 1)) = Some [a; b] /\ 0 <= k /\
  ((nth_error (pairs (Z.of_nat n)) (Z.to_nat k) = Some [papp perm a; papp perm b] /\ svar signed c i = Var c (k + 1)) \/
   (nth_error (pairs (Z.of_nat n)) (Z.to_nat k) = Some [papp perm b; papp perm a] /\ svar signed c i = Par (Neg (Var c (k + 1))))).
Proof.
  intros P Sg [Hc Hi]. destruct (pair_of (Z.of_nat n) i ltac:(lia) Hi) as (a & b & E & Hab & Hb). destruct (signed_nth n perm P (i - 1) a b ltac:(lia) E) as (S & ES & Ez). assert (S = signed) by congruence. subst S.
  assert (Ra := papp_range n perm a P ltac:(lia)). assert (Rb := papp_range n perm b P ltac:(lia)). assert (Ne : papp perm a <> papp perm b) by (intros X; apply (papp_inj n perm a b P) in X; lia).
  destruct (pair_number_ok (Z.of_nat n) _ _ Ra Rb Ne) as (k & Hk & H). exists a, b, k. split; [exact E|]. split; [exact Hk|]. unfold svar. rewrite Ez. destruct H as [(_ & Ek & ->)|(_ & Ek & ->)].
  - left. split; [exact Ek|]. rewrite (proj2 (Z.ltb_lt 0 (k + 1))) by lia. f_equal. lia.
  - right. split; [exact Ek|]. rewrite (proj2 (Z.ltb_ge 0 (- (k + 1)))) by lia. do 3 f_equal. lia.
Qed.
Lemma inv_image_text n perm signed conj e : is_perm n perm -> signed_permutation_2d perm = Ok signed -> vars (invariant_var (Z.of_nat n)) e -> nonneg e ->
  invariant_poly_image (text e) (perm, conj) = Ok (text (ren (inv_var signed conj) e)).
Proof.
  intros P Sg V W. unfold invariant_poly_image. cbn [fst snd]. rewrite Sg. cbn [rbind].
  assert (SV : vars (svars signed) e). { eapply vars_imp; [exact V|]. intros c i [Hc Hi]. split; [exact Hc|]. split; [lia|]. destruct (pair_of (Z.of_nat n) i ltac:(lia) Hi) as (a & b & E & _). destruct (signed_nth n perm P (i - 1) a b ltac:(lia) E) as (S & ES & Ez). assert (S = signed) by congruence. subst S. eauto. }
  assert (T := sub_text signed e SV W [] I). rewrite app_nil_r in T. rewrite T. cbn [inv_sub rmap]. rewrite app_nil_r. f_equal. destruct conj.
  - rewrite inv_swap_text.
    + rewrite ren_ren. reflexivity.
    + apply (vars_ren _ _ _ _ SV). intros c i (Hc & Hi & z & Ez). unfold svar. rewrite Ez. destruct (0 <? z); cbn; (split; [exact Hc|lia]).
    + apply ren_nonneg; [exact W|]. intros c i Hi. unfold svar. destruct (py_nth signed (i - 1)) as [z|]; [|exact Hi]. destruct (0 <? z); cbn; lia.
  - f_equal. clear. induction e; cbn [ren]; try congruence. unfold inv_var. unfold svar. destruct (py_nth signed (i - 1)) as [z|]; [|reflexivity]. destruct (0 <? z); reflexivity.
Qed.
Section Points.
Context {K : Fld}.
Add Field Kid2 : (fth K).
Implicit Types (s t : ps K).
Definition br (c : Z) s i j : result K := if c =? 65 then c_A2 s i j else c_S2 s i j.
Lemma rmapM_keys {A} (f : A -> result (pystr * K)) (g : A -> pystr) l : forall r, (forall x y, f x = Ok y -> fst y = g x) -> rmapM f l = Ok r -> map fst r = map g l.
Proof.
  induction l as [|x l IH]; intros r H E; [injection E as <-; reflexivity|]. cbn [rmapM] in E. destruct (f x) as [y|] eqn:Ex; [|discriminate E]. cbn [rbind] in E. destruct (rmapM f l) as [ys|]; [|discriminate E]. cbn [rbind] in E. injection E as <-. cbn [map]. rewrite (H x y Ex), (IH ys H eq_refl). reflexivity.
Qed.
Lemma items_keys c f (ps : list (list Z)) r : inv_items (K := K) c f ps = Ok r -> map fst r = map (var_name c) (zrange 1 (Z.of_nat (length ps) + 1)).
Proof.
  intros E. unfold inv_items in E. apply (rmapM_keys _ (fun kp => var_name c (fst kp))) in E.
  - rewrite E. etransitivity; [|exact (f_equal (map (var_name c)) (enum_fst ps))]. rewrite map_map. reflexivity.
  - intros [k p] y. cbn [fst snd]. destruct p as [|i [|j [|? ?]]]; try discriminate. destruct (f i j); [|discriminate]. intros X. injection X as <-. reflexivity.
Qed.
Lemma names_NoDup c m : NoDup (map (var_name c) (zrange 1 m)).
Proof. apply NoDup_map_in; [apply zrange_NoDup|]. intros x y Hx Hy E. injection E as E. apply zrange_In in Hx, Hy. apply dec_inj in E; lia. Qed.
Lemma values_get s d k i j c : invariant_values s = Ok d -> 0 <= k -> nth_error (pairs (Z.of_nat (length s))) (Z.to_nat k) = Some [i; j] -> c = 65 \/ c = 66 ->
  exists x, br c s i j = Ok x /\ dict_get (c :: dec (k + 1)) d = Some x.
Proof.
  intros E Hk En Hc. unfold invariant_values in E. destruct (inv_items 65 _ _) as [la|] eqn:Ea; [|discriminate E]. cbn [rbind] in E. destruct (inv_items 66 _ _) as [lb|] eqn:Eb; [|discriminate E]. cbn [rbind] in E. injection E as <-.
  assert (ND : NoDup (map fst (la ++ lb))).
  { rewrite map_app, (items_keys _ _ _ _ Ea), (items_keys _ _ _ _ Eb). apply NoDup_app''; [apply names_NoDup|apply names_NoDup|]. intros x I1 I2. apply in_map_iff in I1, I2. destruct I1 as (u & <- & _), I2 as (v & Ev & _). discriminate Ev. }
  assert (X := enum_nth _ _ _ En). replace (Z.of_nat (Z.to_nat k) + 1) with (k + 1) in X by lia. unfold inv_items in Ea, Eb.
  destruct Hc as [-> | ->].
  - destruct (TwistorThm.rmapM_nth _ _ _ Ea _ _ X) as (y & Ny & Ey). cbn [fst snd] in Ey. change (br 65 s i j) with (c_A2 s i j). destruct (c_A2 s i j) as [x|]; [|discriminate Ey]. cbn [rmap] in Ey. injection Ey as <-. exists x. split; [reflexivity|].
    apply update_get; [exact ND|]. apply in_app_iff. left. eapply nth_error_In; exact Ny.
  - destruct (TwistorThm.rmapM_nth _ _ _ Eb _ _ X) as (y & Ny & Ey). cbn [fst snd] in Ey. change (br 66 s i j) with (c_S2 s i j). destruct (c_S2 s i j) as [x|]; [|discriminate Ey]. cbn [rmap] in Ey. injection Ey as <-. exists x. split; [reflexivity|].
    apply update_get; [exact ND|]. apply in_app_iff. right. eapply nth_error_In; exact Ny.
Qed.
Lemma values_ok s : (forall i j c, 1 <= i < j -> j <= Z.of_nat (length s) -> c = 65 \/ c = 66 -> exists x, br c s i j = Ok x) -> exists d, invariant_values s = Ok d.
Proof.
  intros H. unfold invariant_values.
  assert (G : forall c f, (forall i j, 1 <= i < j -> j <= Z.of_nat (length s) -> exists x, f i j = Ok x) -> exists r, inv_items (K := K) c f (pairs (Z.of_nat (length s))) = Ok r).
  { intros c f Hf. unfold inv_items. apply rmapM_ok_all. intros [k p] I. apply in_combine_r in I. cbn [fst snd]. assert (J := I). rewrite pairs_triu in J. apply in_map_iff in J. destruct J as ([a b] & Ep & _). cbn [fst snd] in Ep. subst p. apply pairs_In in I. destruct (Hf _ _ (proj1 I) (proj2 I)) as (x & ->). cbn [rmap]. eauto. }
  destruct (G 65 (c_A2 s)) as (la & ->). { intros i j H1 H2. exact (H i j 65 H1 H2 (or_introl eq_refl)). }
  destruct (G 66 (c_S2 s)) as (lb & ->). { intros i j H1 H2. exact (H i j 66 H1 H2 (or_intror eq_refl)). }
  cbn [rbind]. eauto.
Qed.
Lemma br_anti c s i j x : c = 65 \/ c = 66 -> sound s -> br c s i j = Ok x -> br c s j i = Ok (- x)%fld.
Proof.
  intros [-> | ->] S E; unfold br in *; cbn [Z.eqb Pos.eqb] in *.
  - destruct (A2_inv s i j x E S) as (pa & pb & ra & rb & Ga & Gb & Ra & Rb & ->). rewrite (A2_make s j i pb pa rb ra S Gb Ga Rb Ra). f_equal. unfold_vec; unfold raise_r; cbn. ring.
  - destruct (S2_inv s i j x E S) as (pa & pb & ra & rb & Ga & Gb & Ra & Rb & ->). rewrite (S2_make s j i pb pa rb ra S Gb Ga Rb Ra). f_equal. unfold_vec; unfold raise_r; cbn. ring.
Qed.
Lemma br_ext c s t i j i' j' : getitem t i' = getitem s i -> getitem t j' = getitem s j -> br c t i' j' = br c s i j.
Proof. intros E1 E2. unfold br, c_A2, c_S2. rewrite E1, E2. reflexivity. Qed.
Lemma br_flip c t i j x : c = 65 \/ c = 66 -> sound t -> Forall plain t -> br c t j i = Ok x -> br (swap_AB c) (ps_flip t) i j = Ok x.
Proof.
  intros [-> | ->] S P E; unfold br, swap_AB in *; cbn [Z.eqb Pos.eqb] in *; [apply flip_S2'|apply flip_A2']; assumption.
Qed.
Definition if_neg (conj : bool) (x : K) : K := if conj then (- x)%fld else x.
Lemma inv_points n perm signed conj s s' d : (0 < n)%nat -> is_perm n perm -> signed_permutation_2d perm = Ok signed -> length s = n -> different s -> sound s -> Forall plain s -> image (perm, conj) s = Ok s' -> invariant_values s = Ok d ->
  exists d', invariant_values s' = Ok d' /\ forall c i, invariant_var (Z.of_nat n) c i -> value (fun x => dict_get x d') (inv_var signed conj c i) = option_map (if_neg conj) (dict_get (c :: dec i) d).
Proof.
  intros N P Sg L D S Pl I Es. destruct (image_split n perm conj s s' N P L D I) as (t & -> & Pt & Lt & G).
  assert (St : sound t) by (apply Forall_forall; intros x Ix; apply (proj1 (Forall_forall _ _) S), (Permutation_in _ Pt Ix)).
  assert (Plt : Forall plain t) by (apply Forall_forall; intros x Ix; apply (proj1 (Forall_forall _ _) Pl), (Permutation_in _ Pt Ix)).
  assert (Lf : length (if conj then ps_flip t else t) = n) by (destruct conj; [rewrite flip_len|]; exact Lt).
  (* every bracket of s, in any order *)
  assert (Bs : forall i j c, 1 <= i <= Z.of_nat n -> 1 <= j <= Z.of_nat n -> i <> j -> c = 65 \/ c = 66 -> exists x, br c s i j = Ok x).
  { assert (B0 : forall i j c, 1 <= i < j -> j <= Z.of_nat n -> c = 65 \/ c = 66 -> exists x, br c s i j = Ok x).
    { intros i j c H1 H2 Hc. assert (Q := proj2 (pairs_In (Z.of_nat n) i j) (Logic.conj H1 H2)). apply In_nth_error in Q. destruct Q as (k & Q). destruct (values_get s d (Z.of_nat k) i j c Es) as (x & E & _); [lia|rewrite Nat2Z.id, L; exact Q|exact Hc|eauto]. }
    intros i j c Hi Hj Nij Hc. destruct (Z.lt_trichotomy i j) as [X|[X|X]]; [apply B0; lia|lia|]. destruct (B0 j i c ltac:(lia) ltac:(lia) Hc) as (x & E). exists (- x)%fld. apply br_anti; assumption. }
  assert (Bt : forall i j c, 1 <= i <= Z.of_nat n -> 1 <= j <= Z.of_nat n -> i <> j -> c = 65 \/ c = 66 -> exists x, br c t i j = Ok x).
  { intros i j c Hi Hj Nij Hc. destruct (papp_surj n perm i P) as (i0 & <- & Ri). destruct (papp_surj n perm j P) as (j0 & <- & Rj). rewrite (br_ext c s t i0 j0) by apply G. apply Bs; auto. intros ->. apply Nij. reflexivity. }
  assert (Bf : forall i j c, 1 <= i < j -> j <= Z.of_nat (length (if conj then ps_flip t else t)) -> c = 65 \/ c = 66 -> exists x, br c (if conj then ps_flip t else t) i j = Ok x).
  { intros i j c H1 H2 Hc. rewrite Lf in H2. destruct conj; [|apply Bt; auto; lia]. destruct (Bt j i (swap_AB c)) as (x & E); try lia; [destruct Hc as [-> | ->]; [right|left]; reflexivity|]. exists x.
    assert (Q := br_flip (swap_AB c) t i j x). destruct Hc as [-> | ->]; apply Q; auto. }
  destruct (values_ok _ Bf) as (d' & Ed'). exists d'. split; [exact Ed'|]. intros c i V. destruct (signed_var n perm signed c i P Sg V) as (a & b & k & E & Hk & H).
  destruct V as [Hc Hi]. destruct (values_get s d (i - 1) a b c Es) as (x & Ex & Dx); [lia|rewrite L; exact E|exact Hc|]. replace (i - 1 + 1) with i in Dx by lia. rewrite Dx. cbn [option_map].
  assert (Tx : br c t (papp perm a) (papp perm b) = Ok x) by (rewrite (br_ext c s t a b) by apply G; exact Ex). assert (Tx' := br_anti c t _ _ x Hc St Tx).
  unfold inv_var. destruct H as [[Ek ->]|[Ek ->]]; cbn [ren value].
  - assert (Sw : (if conj then swap_AB c else c) = 65 \/ (if conj then swap_AB c else c) = 66) by (destruct conj, Hc as [-> | ->]; auto).
    destruct (values_get _ d' k (papp perm a) (papp perm b) (if conj then swap_AB c else c) Ed') as (y & Ey & ->); [exact Hk|rewrite Lf; exact Ek|exact Sw|]. destruct conj; cbn [if_neg].
    + rewrite (br_flip c t _ _ _ Hc St Plt Tx') in Ey. congruence.
    + congruence.
  - assert (Sw : (if conj then swap_AB c else c) = 65 \/ (if conj then swap_AB c else c) = 66) by (destruct conj, Hc as [-> | ->]; auto).
    destruct (values_get _ d' k (papp perm b) (papp perm a) (if conj then swap_AB c else c) Ed') as (y & Ey & ->); [exact Hk|rewrite Lf; exact Ek|exact Sw|]. cbn [option_map]. destruct conj; cbn [if_neg].
    + rewrite (br_flip c t _ _ _ Hc St Plt Tx) in Ey. congruence.
    + rewrite Tx' in Ey. injection Ey as <-. f_equal. ring.
Qed.
(* ---- homogeneous polynomials ---- *)
Definition sgn (d : Z) (x : K) : K := if Z.even d then x else (- x)%fld.
Lemma sgn_pow d x k : power (sgn d x) k = sgn (Z.of_nat k * d) (power x k).
Proof.
  induction k as [|k IH]; [reflexivity|]. cbn [power]. rewrite IH. unfold sgn. replace (Z.of_nat (S k) * d) with (d + Z.of_nat k * d) by lia. rewrite Z.even_add. destruct (Z.even d), (Z.even (Z.of_nat k * d)); cbn [Bool.eqb]; ring.
Qed.
Lemma value_neg (at_ : pystr -> option K) e d : degree e d -> nonneg e -> value (fun x => option_map (if_neg true) (at_ x)) e = option_map (sgn d) (value at_ e).
Proof.
  induction 1 as [k|c i|a d H IH|st a k d H IH|a d H IH|a b d d' H1 IH1 H2 IH2|a b d H1 IH1 H2 IH2|a b d H1 IH1 H2 IH2]; cbn [nonneg value]; intros W.
  - reflexivity.
  - reflexivity.
  - auto.
  - rewrite IH by tauto. destruct (value at_ a) as [x|]; [|reflexivity]. cbn [option_map]. rewrite sgn_pow, Z2Nat.id by tauto. reflexivity.
  - rewrite IH by exact W. destruct (value at_ a) as [x|]; [|reflexivity]. cbn [option_map]. f_equal. unfold sgn. destruct (Z.even d); ring.
  - rewrite IH1, IH2 by tauto. destruct (value at_ a) as [x|]; [|reflexivity]. destruct (value at_ b) as [y|]; [|reflexivity]. cbn [option_map]. f_equal. unfold sgn. rewrite Z.even_add. destruct (Z.even d), (Z.even d'); cbn [Bool.eqb]; ring.
  - rewrite IH1, IH2 by tauto. destruct (value at_ a) as [x|]; [|reflexivity]. destruct (value at_ b) as [y|]; [|reflexivity]. cbn [option_map]. f_equal. unfold sgn. destruct (Z.even d); ring.
  - rewrite IH1, IH2 by tauto. destruct (value at_ a) as [x|]; [|reflexivity]. destruct (value at_ b) as [y|]; [|reflexivity]. cbn [option_map]. f_equal. unfold sgn. destruct (Z.even d); ring.
Qed.
Lemma neg_zero (k : Z) : (if Z.even k then f0 else (- f0)%fld) = f0 :> K.
Proof. destruct (Z.even k); ring. Qed.
Lemma value_ext (at1 at2 : pystr -> option K) e : (forall x, at1 x = at2 x) -> value at1 e = value at2 e.
Proof. intros H. induction e; cbn [value]; try rewrite IHe; try rewrite IHe1, IHe2; auto. Qed.
End Points.
Theorem invariant_image_ok n perm conj e : (0 < n <= 9)%nat -> is_perm n perm -> sum e -> vars (invariant_var (Z.of_nat n)) e ->
  exists e', invariant_poly_image (text e) (perm, conj) = Ok (text e') /\ sum e' /\ vars (invariant_var (Z.of_nat n)) e' /\
  forall (K : Fld) (s s' : ps K) (d : dict K), length s = n -> different s -> sound s -> Forall plain s -> image (perm, conj) s = Ok s' -> invariant_values s = Ok d ->
  exists d', invariant_values s' = Ok d' /\
  value (fun x => dict_get x d') e' = value (fun x => option_map (fun v => if conj then fopp v else v) (dict_get x d)) e /\
  (conj = false -> value (fun x => dict_get x d') e' = value (fun x => dict_get x d) e) /\
  (forall k, conj = true -> degree e k -> value (fun x => dict_get x d') e' = option_map (fun v => if Z.even k then v else fopp v) (value (fun x => dict_get x d) e)).
Proof.
  intros [N N9] P Se V. destruct (signed_permutation_2d perm) as [signed|] eqn:Sg; [|rewrite (signed_ok n perm P) in Sg; discriminate Sg].
  exists (ren (inv_var signed conj) e). split; [apply (inv_image_text n); auto using sum_nonneg|].
  assert (SV : forall c i, invariant_var (Z.of_nat n) c i -> exists k, 1 <= k <= Z.of_nat n * (Z.of_nat n - 1) / 2 /\ (svar signed c i = Var c k \/ svar signed c i = Par (Neg (Var c k)))).
  { intros c i Hci. destruct (signed_var n perm signed c i P Sg Hci) as (a & b & k & _ & Hk & H). exists (k + 1). rewrite <- pairs_length by lia. split.
    - assert (Q : nth_error (pairs (Z.of_nat n)) (Z.to_nat k) <> None) by (destruct H as [[-> _]|[-> _]]; discriminate). apply nth_error_Some in Q. lia.
    - destruct H as [[_ ->]|[_ ->]]; auto. }
  split.
  { rewrite (ren_ext (invariant_var (Z.of_nat n)) _ (fun c i => match svar signed c i with Var _ k => Var (if conj then swap_AB c else c) (Z.abs k) | Par (Neg (Var _ k)) => Par (Neg (Var (if conj then swap_AB c else c) (Z.abs k))) | _ => Num 0 end) _ V).
    - apply ren_sum; [|exact Se]. intros c i _. destruct (svar signed c i) as [| |[| | | |[]| | |]| | | | |]; try (constructor; lia). apply atom_par, sum_neg, term_factor, factor_atom, atom_var. lia.
    - intros c i Hci. destruct (SV c i Hci) as (k & Hk & H). unfold inv_var. destruct H as [-> | ->]; cbn [ren]; rewrite Z.abs_eq by lia; reflexivity. }
  split.
  { apply (vars_ren _ _ _ _ V). intros c i Hci. destruct (SV c i Hci) as (k & Hk & H). unfold inv_var. destruct Hci as [Hc _]. destruct H as [-> | ->]; cbn [ren vars]; (split; [|exact Hk]); destruct conj, Hc as [-> | ->]; cbn; auto. }
  intros K s s' d L D S Pl I Es. destruct (inv_points n perm signed conj s s' d N P Sg L D S Pl I Es) as (d' & Ed' & H). exists d'. split; [exact Ed'|].
  assert (M : value (fun x => dict_get x d') (ren (inv_var signed conj) e) = value (fun x => option_map (if_neg conj) (dict_get x d)) e) by (apply (value_ren _ _ _ _ _ V); exact H).
  split; [exact M|]. split.
  - intros ->. rewrite M. apply value_ext. intros x. destruct (dict_get x d); reflexivity.
  - intros k -> Dg. rewrite M. rewrite (value_neg _ e k Dg (sum_nonneg e Se)). reflexivity.
Qed.

(* ---- generators ---- *)
Lemma lips_ideal_ok n perm conj es : (0 < n <= 9)%nat -> is_perm n perm ->
  (forall e, In e es -> sum e /\ vars (covariant_var (Z.of_nat n)) e) ->
  exists es', lips_image (map text es) (perm, conj) = Ok (map text es') /\ length es' = length es /\
  forall (K : Fld) (s s' : ps K) (d : dict K), length s = n -> different s -> sound s -> Forall plain s -> image (perm, conj) s = Ok s' -> analytical_subs_d s = Ok d ->
  (forall e, In e es -> value (fun x => dict_get x d) e = Some f0) ->
  exists d', analytical_subs_d s' = Ok d' /\ forall e', In e' es' -> value (fun x => dict_get x d') e' = Some f0.
Proof.
  intros N P. induction es as [|e es IH]; intros H.
  - exists []. split; [reflexivity|]. split; [reflexivity|]. intros K s s' d L D S Pl I Ed _. destruct (covariant_ok n perm conj (Num 0) N P) as (e' & _ & _ & _ & T); [apply sum_term, term_factor, factor_atom, atom_num; lia|exact Logic.I|]. destruct (T K s s' d L D S Pl I Ed) as (d' & E & _). exists d'. split; [exact E|]. intros ? [].
  - destruct (H e (or_introl eq_refl)) as [Se Ve]. destruct (covariant_ok n perm conj e N P Se Ve) as (e' & E & _ & _ & T). destruct IH as (es' & E' & L' & T'); [intros x Ix; apply H; right; exact Ix|].
    exists (e' :: es'). split; [unfold lips_image in *; cbn [map rmapM]; rewrite E; cbn [rbind]; rewrite E'; reflexivity|]. split; [cbn; congruence|].
    intros K s s' d L D S Pl I Ed Hz. destruct (T K s s' d L D S Pl I Ed) as (d' & Ed' & Ev). destruct (T' K s s' d L D S Pl I Ed) as (d'' & Ed'' & Hz'); [intros x Ix; apply Hz; right; exact Ix|]. assert (d'' = d') by congruence. subst d''.
    exists d'. split; [exact Ed'|]. intros x [<-|Ix]; [rewrite Ev; apply Hz; left; reflexivity|apply Hz'; exact Ix].
Qed.
Lemma spinor_ideal_ok n perm conj es : (0 < n <= 9)%nat -> is_perm n perm ->
  (forall e, In e es -> sum e /\ vars (invariant_var (Z.of_nat n)) e /\ (conj = true -> exists k, degree e k)) ->
  exists es', spinor_image (map text es) (perm, conj) = Ok (map text es') /\ length es' = length es /\
  forall (K : Fld) (s s' : ps K) (d : dict K), length s = n -> different s -> sound s -> Forall plain s -> image (perm, conj) s = Ok s' -> invariant_values s = Ok d ->
  (forall e, In e es -> value (fun x => dict_get x d) e = Some f0) ->
  exists d', invariant_values s' = Ok d' /\ forall e', In e' es' -> value (fun x => dict_get x d') e' = Some f0.
Proof.
  intros N P. induction es as [|e es IH]; intros H.
  - exists []. split; [reflexivity|]. split; [reflexivity|]. intros K s s' d L D S Pl I Ed _. destruct (invariant_image_ok n perm conj (Num 0) N P) as (e' & _ & _ & _ & T); [apply sum_term, term_factor, factor_atom, atom_num; lia|exact Logic.I|]. destruct (T K s s' d L D S Pl I Ed) as (d' & E & _). exists d'. split; [exact E|]. intros ? [].
  - destruct (H e (or_introl eq_refl)) as (Se & Ve & De). destruct (invariant_image_ok n perm conj e N P Se Ve) as (e' & E & _ & _ & T). destruct IH as (es' & E' & L' & T'); [intros x Ix; apply H; right; exact Ix|].
    exists (e' :: es'). split; [unfold spinor_image in *; cbn [map rmapM]; rewrite E; cbn [rbind]; rewrite E'; reflexivity|]. split; [cbn; congruence|].
    intros K s s' d L D S Pl I Ed Hz. destruct (T K s s' d L D S Pl I Ed) as (d' & Ed' & _ & Ev & Ev'). destruct (T' K s s' d L D S Pl I Ed) as (d'' & Ed'' & Hz'); [intros x Ix; apply Hz; right; exact Ix|]. assert (d'' = d') by congruence. subst d''.
    exists d'. split; [exact Ed'|]. intros x [<-|Ix]; [|apply Hz'; exact Ix]. assert (Z0 := Hz e (or_introl eq_refl)). destruct conj.
    + destruct (De eq_refl) as (k & Dk). rewrite (Ev' k eq_refl Dk), Z0. cbn [option_map]. f_equal. apply (neg_zero k).
    + rewrite (Ev eq_refl). exact Z0.
Qed.
