(* Proofs about membership, rings and the conversion ideal. *)
From Coq Require Import List ZArith Bool Lia Field.
From Verif Require HeapThm PhaseThm.
From Verif Require Import Base Fld Particle ParticleSpec Index Phase PhaseSpec Symm SymmSpec SymmThm Compute ComputeSpec ComputeThm ComputeThm5 Str Gen GenThm GenThm2 Ideal IdealSpec IdealThm IdealThm2 RatPoly RatFun Analytic AnalyticSpec AnalyticThm AnalyticThm2 AnalyticThm3 AnalyticThm4 Member MemberSpec.
Import ListNotations.

(* ---- ideals ---- *)
Section Generated.
Context {K : Fld} (m : nat) (gs : list (tower K m)).
Add Field Kme1 : (fth (tower K m)).
Notation gen := (generated m gs).
Lemma gen_plus x y : gen x -> gen y -> gen (x + y)%fld.
Proof.
  induction 1 as [|c g x P I H IH]; intros Y.
  - replace (0 + y)%fld with y by ring. exact Y.
  - replace (c * g + x + y)%fld with (c * g + (x + y))%fld by ring. apply gen_add; auto.
Qed.
Lemma gen_times c x : polynomial m c -> gen x -> gen (c * x)%fld.
Proof.
  intros Pc. induction 1 as [|c' g x P I H IH].
  - replace (c * 0)%fld with (0 : tower K m)%fld by ring. apply gen_zero.
  - replace (c * (c' * g + x))%fld with (c * c' * g + c * x)%fld by ring. apply gen_add; [apply poly_mul; assumption|exact I|exact IH].
Qed.
Lemma gen_in g : In g gs -> gen g.
Proof.
  intros I. replace g with (tconst m 1 * g + 0)%fld; [apply gen_add; [apply poly_const|exact I|apply gen_zero]|].
  assert (E : tconst m (1 : K)%fld = (1 : tower K m)%fld); [|rewrite E; ring].
  clear. induction m as [|m' IH]; [reflexivity|]. cbn [tconst]. rewrite IH. reflexivity.
Qed.
End Generated.
Section Values.
Context {K0 K : Fld} (R0 : K0 -> K -> Prop) (RR : ring_rel K0 K R0) (Fu : functional R0) (Tot : forall x, exists y, R0 x y) (v : nat -> K) (m : nat).
Notation sub := (subst R0 v m).
Lemma poly_value x : polynomial m x -> exists y, sub x y.
Proof.
  induction 1 as [c|j J|x y X [a A] Y [b B]|x y X [a A] Y [b B]].
  - destruct (Tot c) as (y & H). exists y. apply (subst_const R0 RR v m), H.
  - exists (v j). apply (subst_sym R0 RR v m), J.
  - exists (a + b)%fld. apply (rr_add _ _ _ (subst_ring R0 RR v m)); assumption.
  - exists (a * b)%fld. apply (rr_mul _ _ _ (subst_ring R0 RR v m)); assumption.
Qed.
Add Field Kme2 : (fth K).
Lemma gen_value gs x : all_zero R0 m v gs -> generated m gs x -> sub x 0%fld.
Proof.
  intros Z. induction 1 as [|c g x P I H IH]; [apply (rr_0 _ _ _ (subst_ring R0 RR v m))|].
  destruct (poly_value c P) as (y & Y). replace (0 : K)%fld with (y * 0 + 0)%fld by ring.
  apply (rr_add _ _ _ (subst_ring R0 RR v m)); [|exact IH]. apply (rr_mul _ _ _ (subst_ring R0 RR v m)); [exact Y|apply Z, I].
Qed.
End Values.
Section Contains.
Context {K0 : Fld} (s0 : ps K0).
Notation m := (4 * length s0).
Lemma spinor_analytic S : make_analytical_d None s0 = Ok S -> Forall reproduces S /\ sound S.
Proof. intros E. destruct (make_built _ _ _ E) as (_ & R & So). auto. Qed.
Lemma gens_parts covs mc gs : lips_generators s0 covs mc = Ok gs -> exists S, make_analytical_d None s0 = Ok S /\
  (forall e, In e covs -> exists v, compute S e = Ok v /\ incl (map (fun x => (2 * 2 * x)%fld) (entries v)) gs) /\
  (mc = true -> incl (entries (VMat (total_mom S))) gs).
Proof.
  unfold lips_generators. destruct (make_analytical_d None s0) as [S|] eqn:ES; cbn [rbind]; [|discriminate]. intros H. exists S. split; [reflexivity|].
  destruct (rmapM _ covs) as [gg|] eqn:Eg; cbn [rbind] in H; [|discriminate].
  assert (C : forall e, In e covs -> exists v, compute S e = Ok v /\ In (map (fun x => (2 * 2 * x)%fld) (entries v)) gg).
  { clear H. revert gg Eg. induction covs as [|e covs IH]; intros gg Eg e' I; [destruct I|]. cbn [rmapM] in Eg.
    destruct (compute S e) as [v|] eqn:Ev; cbn [rbind] in Eg; [|discriminate]. destruct (rmapM as_poly _) as [l|] eqn:El; cbn [rbind] in Eg; [|discriminate]. apply rmapM_as_poly in El. subst l.
    destruct (rmapM _ covs) as [gg'|] eqn:Eg'; cbn [rbind] in Eg; [|discriminate]. injection Eg as <-. destruct I as [<-|I].
    - exists v. split; [exact Ev|left; reflexivity].
    - destruct (IH gg' eq_refl e' I) as (v' & E' & I'). exists v'. split; [exact E'|right; exact I']. }
  destruct mc.
  - destruct (rmapM as_poly (entries (VMat (total_mom S)))) as [ms|] eqn:Em; cbn [rbind] in H; [|discriminate]. apply rmapM_as_poly in Em. injection H as <-. subst ms. split.
    + intros e I. destruct (C e I) as (v & E & J). exists v. split; [exact E|]. intros x Ix. apply in_or_app. left. apply in_concat. eauto.
    + intros _ x Ix. apply in_or_app. right. exact Ix.
  - cbn [rbind] in H. injection H as <-. split; [|discriminate]. intros e I. destruct (C e I) as (v & E & J). exists v. split; [exact E|]. intros x Ix. apply in_or_app. left. apply in_concat. eauto.
Qed.
Variables (mem : tower K0 m -> bool) (other : inv -> result bool) (covs : list inv) (mc : bool) (gs : list (tower K0 m)).
Hypothesis (Eg : lips_generators s0 covs mc = Ok gs).
Lemma contains_given e : (forall g, In g gs -> mem g = true) -> In e covs -> contains s0 mem other e = Ok true.
Proof.
  intros Gm I. destruct (gens_parts covs mc gs Eg) as (S & ES & C & _). unfold contains. rewrite ES. cbn [rbind]. destruct (C e I) as (v & -> & J). f_equal.
  apply forallb_forall. intros x Ix. apply Gm, J, Ix.
Qed.
Lemma contains_vanishes {K : Fld} (R0 : K0 -> K -> Prop) (RR : ring_rel K0 K R0) (Fu : functional R0) (Tot : forall x, exists y, R0 x y) (t : ps K) e :
  (forall x, mem x = true -> generated m gs x) -> (exists v, compute t e = Ok v) -> length t = length s0 -> Forall reproduces t -> contains s0 mem other e = Ok true ->
  Forall (vanishes t) covs -> (mc = true -> total_mom t = mzero) -> vanishes t e.
Proof.
  intros Dec (v' & Ev') L R Ct V M. destruct (gens_parts covs mc gs Eg) as (S & ES & _ & _). destruct (point_spinors (K := K) (length s0) t (conj L R)) as (d & D).
  assert (Z : all_zero R0 m (given d) gs). { intros g. apply (proj2 (gens_values R0 RR Fu s0 covs mc gs t d Eg L R D) (conj V M)). }
  unfold contains in Ct. rewrite ES in Ct. cbn [rbind] in Ct.
  assert (P := make_prel R0 RR s0 None S t d ES L R D (fun j x y H _ _ => ltac:(destruct H as (? & X & _); discriminate X))).
  assert (Q := rel_compute (subst R0 (given d) m) (subst_ring R0 RR (given d) m) S t P e).
  destruct (rrel_ok' _ _ _ _ Q Ev') as (v & Ev & Rv). rewrite Ev in Ct. injection Ct as Ct. rewrite forallb_forall in Ct.
  exists v'. split; [exact Ev'|]. apply is_zero_entries. apply (zero_lists (tower K0 m) (subst R0 (given d) m) (subst_ring R0 RR (given d) m) (subst_fun R0 RR (given d) m Fu) _ _ (rel_entries _ _ _ Rv)).
  intros g Ig. apply (gen_value R0 RR Tot (given d) m gs g Z). apply Dec, Ct, Ig.
Qed.
(* no other exceptions than those of the covariant *)
Lemma contains_answers {K : Fld} (R0 : K0 -> K -> Prop) (RR : ring_rel K0 K R0) (t : ps K) e v :
  length t = length s0 -> Forall reproduces t -> compute t e = Ok v -> exists b, contains s0 mem other e = Ok b.
Proof.
  intros L R Ev'. destruct (gens_parts covs mc gs Eg) as (S & ES & _ & _). destruct (point_spinors (K := K) (length s0) t (conj L R)) as (d & D).
  assert (P := make_prel R0 RR s0 None S t d ES L R D (fun j x y H _ _ => ltac:(destruct H as (? & X & _); discriminate X))).
  assert (Q := rel_compute (subst R0 (given d) m) (subst_ring R0 RR (given d) m) S t P e).
  destruct (rrel_ok' _ _ _ _ Q Ev') as (w & Ev & Rv). unfold contains. rewrite ES. cbn [rbind]. rewrite Ev. eauto.
Qed.
End Contains.

(* ---- rings ---- *)
Section Rings.
Open Scope Z_scope.
Lemma symbols_length c n : 0 <= n -> length (symbols c n) = Z.to_nat n.
Proof. intros H. unfold symbols, zrange. rewrite !map_length, seq_length. lia. Qed.
Lemma turn4 (f : nat -> Z -> pystr) : forall k a n, (k = n - a)%nat -> (a <= n)%nat ->
  in_turn (4 * k) (map (fun c => map (f c) (map (fun i => Z.of_nat (S i)) (seq a k))) [0; 1; 2; 3]%nat) =
  Ok (map (fun j => f (j mod 4)%nat (Z.of_nat (S (a + j / 4)))) (seq 0 (4 * k))).
Proof.
  induction k as [|k IH]; intros a n E L; [reflexivity|]. replace (4 * S k)%nat with (S (S (S (S (4 * k)))))%nat by lia.
  cbn [map seq in_turn app]. specialize (IH (S a) n ltac:(lia) ltac:(lia)). cbn [map] in IH. rewrite IH. cbn [rmap]. f_equal.
  cbn [seq map]. replace (a + 0 / 4)%nat with a by (cbn; lia). replace (a + 1 / 4)%nat with a by (cbn; lia). replace (a + 2 / 4)%nat with a by (cbn; lia). replace (a + 3 / 4)%nat with a by (cbn; lia).
  change (0 mod 4)%nat with 0%nat. change (1 mod 4)%nat with 1%nat. change (2 mod 4)%nat with 2%nat. change (3 mod 4)%nat with 3%nat. do 4 f_equal.
  rewrite <- (seq_shift (4 * k) 3), <- (seq_shift (4 * k) 2), <- (seq_shift (4 * k) 1), <- (seq_shift (4 * k) 0), !map_map. apply map_ext. intros j.
  replace (S (S (S (S j)))) with (j + 1 * 4)%nat by lia. rewrite Nat.mod_add, Nat.div_add by lia. f_equal. f_equal. lia.
Qed.
Lemma covariant_symbols_ok n : lips_covariant_symbols (Z.of_nat n) = Ok (map name (seq 0 (4 * n))).
Proof.
  unfold lips_covariant_symbols. replace (Z.to_nat (4 * Z.of_nat n)) with (4 * n)%nat by lia.
  assert (S : forall c, symbols c (Z.of_nat n) = map (var_name c) (map (fun i => Z.of_nat (S i)) (seq 0 n))).
  { intros c. unfold symbols, zrange. replace (Z.to_nat (Z.of_nat n + 1 - 1)) with n by lia. f_equal. apply map_ext. intros i. lia. }
  rewrite !S. assert (T := turn4 (fun c => var_name (97 + Z.of_nat c)) n 0 n ltac:(lia) ltac:(lia)). cbn [map] in T. change (97 + Z.of_nat 0) with 97 in T. change (97 + Z.of_nat 1) with 98 in T. change (97 + Z.of_nat 2) with 99 in T. change (97 + Z.of_nat 3) with 100 in T.
  rewrite T. f_equal. apply map_ext. intros j. unfold name, var_name. do 2 f_equal. cbn [Nat.add]. lia.
Qed.
Lemma invariant_symbols_ok n : lips_invariant_symbols (Z.of_nat n) = map (fun k => var_name 65 (Z.of_nat k)) (seq 1 (n * (n - 1) / 2)) ++ map (fun k => var_name 66 (Z.of_nat k)) (seq 1 (n * (n - 1) / 2)).
Proof.
  assert (E : Z.of_nat n * (Z.of_nat n - 1) / 2 = Z.of_nat (n * (n - 1) / 2)).
  { destruct n as [|n]; [reflexivity|]. rewrite Nat2Z.inj_div. f_equal. rewrite Nat2Z.inj_mul. f_equal. lia. }
  unfold lips_invariant_symbols. rewrite E. unfold symbols, zrange. replace (Z.to_nat (Z.of_nat (n * (n - 1) / 2) + 1 - 1)) with (n * (n - 1) / 2)%nat by lia.
  rewrite !map_map, <- !seq_shift, !map_map. f_equal; apply map_ext; intros k; f_equal; lia.
Qed.
Lemma covariant_multiplicity_ok n l : lips_covariant_symbols (Z.of_nat n) = Ok l -> covariant_multiplicity l = Z.of_nat n.
Proof.
  rewrite covariant_symbols_ok. intros E. injection E as <-. unfold covariant_multiplicity. rewrite map_length, seq_length, Z.div_div by lia.
  match goal with |- Z.of_nat ?x / _ = _ => replace (Z.of_nat x) with (Z.of_nat n * (2 * 2)) by lia end. apply Z.div_mul. lia.
Qed.
Lemma even_pairs n : (n * (n - 1) = 2 * (n * (n - 1) / 2))%nat.
Proof.
  assert (H : exists k, (n * (n - 1) = k * 2)%nat). { induction n as [|n [k E]]; [exists 0%nat; reflexivity|]. exists (k + n)%nat. destruct n as [|n]; nia. }
  destruct H as (k & ->). rewrite Nat.div_mul by lia. lia.
Qed.
Lemma invariant_length n : length (lips_invariant_symbols (Z.of_nat n)) = (n * (n - 1))%nat.
Proof. rewrite invariant_symbols_ok, app_length, !map_length, !seq_length. assert (H := even_pairs n). lia. Qed.
Lemma invariant_multiplicity_ok n : (1 <= n)%nat -> invariant_multiplicity (lips_invariant_symbols (Z.of_nat n)) = Z.of_nat n.
Proof.
  intros N. unfold invariant_multiplicity. rewrite invariant_length. replace (4 * Z.of_nat (n * (n - 1)) + 1) with ((2 * Z.of_nat n - 1) * (2 * Z.of_nat n - 1)) by (rewrite Nat2Z.inj_mul, Nat2Z.inj_sub by lia; ring).
  rewrite Z.sqrt_square by lia. replace (1 + (2 * Z.of_nat n - 1)) with (Z.of_nat n * 2) by lia. apply Z.div_mul. lia.
Qed.
(* the position of a pair *)
Lemma pairs_from b : forall k a i j, k = Z.to_nat (b - a) -> a <= i < j -> j < b ->
  nth_error (combinations 2 (zrange a b)) (Z.to_nat (((i - a) * (2 * b - a - i - 1)) / 2 + (j - i) - 1)) = Some [i; j].
Proof.
  induction k as [|k IH]; intros a i j E H J; [lia|]. rewrite zrange_cons by lia. cbn [combinations].
  assert (M : forall l : list Z, map (cons a) (combinations 1 l) = map (fun y => [a; y]) l).
  { induction l as [|y l IHl]; [reflexivity|]. change (combinations 1 (y :: l)) with (map (cons y) (combinations 0 l) ++ combinations 1 l). assert (C0 : combinations 0 l = [[]]) by (destruct l; reflexivity). rewrite C0, map_app, IHl. reflexivity. }
  rewrite M. assert (Lz : length (zrange (a + 1) b) = Z.to_nat (b - a - 1)) by (unfold zrange; rewrite map_length, seq_length; f_equal; lia).
  destruct (Z.eq_dec i a) as [->|N].
  - rewrite Z.sub_diag, Z.mul_0_l. change (0 / 2) with 0. rewrite nth_error_app1 by (rewrite map_length, Lz; lia). rewrite nth_error_map. unfold zrange. rewrite nth_error_map, TwistorThm.nth_error_seq by lia. cbn [option_map]. do 3 f_equal. lia.
  - assert (X : (i - a) * (2 * b - a - i - 1) / 2 = (b - a - 1) + (i - (a + 1)) * (2 * b - (a + 1) - i - 1) / 2).
    { replace ((i - a) * (2 * b - a - i - 1)) with ((i - (a + 1)) * (2 * b - (a + 1) - i - 1) + (b - a - 1) * 2) by ring. rewrite Z.div_add by lia. lia. }
    assert (P0 : 0 <= (i - (a + 1)) * (2 * b - (a + 1) - i - 1) / 2) by (apply Z.div_pos; [apply Z.mul_nonneg_nonneg; lia|lia]).
    rewrite X, nth_error_app2; rewrite map_length, Lz; [|lia].
    match goal with |- nth_error _ ?u = _ => replace u with (Z.to_nat ((i - (a + 1)) * (2 * b - (a + 1) - i - 1) / 2 + (j - i) - 1)) by lia end. apply IH; lia.
Qed.
Lemma pairs_number n i j : 1 <= i < j -> j <= n -> nth_error (pairs n) (Z.to_nat (pair_number n i j - 1)) = Some [i; j].
Proof.
  intros H J. unfold pairs, indices, pair_number. rewrite <- (pairs_from (n + 1) (Z.to_nat (n + 1 - 1)) 1 i j eq_refl H ltac:(lia)). f_equal. f_equal. f_equal. f_equal. f_equal. ring.
Qed.
Lemma pair_number_pos n i j : 1 <= i < j -> j <= n -> 1 <= pair_number n i j.
Proof. intros H J. unfold pair_number. assert (0 <= (i - 1) * (2 * n - i) / 2) by (apply Z.div_pos; [apply Z.mul_nonneg_nonneg; lia|lia]). lia. Qed.
End Rings.

(* ---- the conversion ideal ---- *)
Section Conversion.
Open Scope Z_scope.
Context {K0 : Fld} (s0 : ps K0).
Notation m := (4 * length s0)%nat.
Notation zn := (Z.of_nat (length s0)).
Definition two_of (angle : bool) (i j : Z) : inv := if angle then IA2 i j else IS2 i j.
Definition letter (angle : bool) : Z := if angle then 65 else 66.
Lemma pairs_NoDup n : NoDup (pairs n).
Proof.
  rewrite pairs_triu. apply NoDup_map_in.
  - unfold triu. apply NoDup_flat.
    + intros i _. apply NoDup_map_in; [apply zrange_NoDup|]. intros x y _ _ E. congruence.
    + intros l1 x l2 y l3 z E I I'. apply in_map_iff in I as (u & <- & _). apply in_map_iff in I' as (u' & Q & _). injection Q as Q _. subst y.
      assert (N := zrange_NoDup 0 n). rewrite E in N. apply NoDup_remove_2 in N. apply N. apply in_or_app. right. apply in_or_app. right. left. reflexivity.
  - intros [a b] [a' b'] _ _ E. cbn [fst snd] in E. injection E as E1 E2. f_equal; lia.
Qed.
Lemma rmapM_back {A B} (f : A -> result B) l : forall r k y, rmapM f l = Ok r -> nth_error r k = Some y -> exists x, nth_error l k = Some x /\ f x = Ok y.
Proof.
  intros r k y E N. assert (L := rmapM_length f l r E). destruct (nth_error l k) as [x|] eqn:Ex; [|apply nth_error_None in Ex; rewrite <- L in Ex; apply nth_error_None in Ex; congruence].
  destruct (TwistorThm.rmapM_nth f l r E k x Ex) as (y' & N' & F). exists x. split; [reflexivity|]. congruence.
Qed.
Lemma items_In {K : Fld} (s : ps K) angle n l A x : inv_items (letter angle) (if angle then c_A2 s else c_S2 s) (pairs n) = Ok l ->
  (In (A, x) l <-> exists i j, 1 <= i < j /\ j <= n /\ A = var_name (letter angle) (pair_number n i j) /\ compute s (two_of angle i j) = Ok (VS x)).
Proof.
  intros E. unfold inv_items in E.
  assert (Cm : forall i j y, compute s (two_of angle i j) = Ok (VS y) <-> (if angle then c_A2 s else c_S2 s) i j = Ok y).
  { intros i j y. destruct angle; cbn [two_of compute]; [destruct (c_A2 s i j)|destruct (c_S2 s i j)]; cbn [rmap]; split; intros H; congruence. }
  split.
  - intros I. apply In_nth_error in I as (k & Nk). destruct (rmapM_back _ _ _ _ _ E Nk) as ([q p] & Nq & Eq). cbn [fst snd] in Eq.
    destruct (combine_nth_inv _ _ _ _ Nq) as [Nq1 Nq2]. cbn [fst snd] in *. assert (Ip := nth_error_In _ _ Nq2). assert (J := Ip). rewrite pairs_triu in J. apply in_map_iff in J. destruct J as ([a b] & Ep & _). cbn [fst snd] in Ep. subst p.
    apply pairs_In in Ip. exists (a + 1), (b + 1). split; [lia|]. split; [lia|]. destruct ((if angle then c_A2 s else c_S2 s) (a + 1) (b + 1)) as [y|] eqn:Ey; [|discriminate]. cbn [rmap] in Eq. injection Eq as <- <-. split; [|apply Cm, Ey].
    f_equal. assert (P := pairs_number n (a + 1) (b + 1) (proj1 Ip) (proj2 Ip)). assert (Q := pair_number_pos n (a + 1) (b + 1) (proj1 Ip) (proj2 Ip)).
    assert (k = Z.to_nat (pair_number n (a + 1) (b + 1) - 1)). { apply (proj1 (NoDup_nth_error (pairs n))); [apply pairs_NoDup|apply nth_error_Some; congruence|congruence]. }
    subst k. unfold zrange in Nq1. rewrite nth_error_map, TwistorThm.nth_error_seq in Nq1; [cbn [option_map] in Nq1; apply (f_equal (fun o => match o with Some z => z | None => 0 end)) in Nq1; lia|].
    apply (f_equal (fun o => match o with Some _ => true | None => false end)) in P. assert (X := proj1 (nth_error_Some (pairs n) (Z.to_nat (pair_number n (a + 1) (b + 1) - 1))) ltac:(congruence)). lia.
  - intros (i & j & H1 & H2 & -> & Ec). apply Cm in Ec. assert (P := pairs_number n i j H1 H2). assert (Q := pair_number_pos n i j H1 H2). assert (X := enum_nth _ _ _ P). replace (Z.of_nat (Z.to_nat (pair_number n i j - 1)) + 1) with (pair_number n i j) in X by lia.
    destruct (TwistorThm.rmapM_nth _ _ _ E _ _ X) as (y & Ny & Ey). cbn [fst snd] in Ey. rewrite Ec in Ey. cbn [rmap] in Ey. injection Ey as <-. eapply nth_error_In; exact Ny.
Qed.
Lemma conv_parts c : conversion_generators s0 = Ok c -> exists S, make_analytical_d None s0 = Ok S /\
  forall A x, In (A, x) c <-> exists angle i j, 1 <= i < j /\ j <= zn /\ A = var_name (letter angle) (pair_number zn i j) /\ compute S (two_of angle i j) = Ok (VS x).
Proof.
  unfold conversion_generators. destruct (make_analytical_d None s0) as [S|]; cbn [rbind]; [|discriminate]. intros H. exists S. split; [reflexivity|].
  destruct (inv_items 65 (c_A2 S) (pairs zn)) as [a|] eqn:Ea; cbn [rbind] in H; [|discriminate]. destruct (inv_items 66 (c_S2 S) (pairs zn)) as [b|] eqn:Eb; cbn [rbind] in H; [|discriminate]. injection H as <-.
  intros A x. rewrite in_app_iff, (items_In S true zn a A x Ea), (items_In S false zn b A x Eb). split.
  - intros [H|H]; [exists true|exists false]; exact H.
  - intros ([] & H); [left|right]; exact H.
Qed.
Lemma bracket_ok {K : Fld} (t : ps K) angle i j : sound t -> Forall reproduces t -> 1 <= i < j -> j <= Z.of_nat (length t) -> exists x, compute t (two_of angle i j) = Ok (VS x).
Proof.
  intros So R H J. destruct (get_exists t i ltac:(lia)) as (p & Gp). destruct (get_exists t j ltac:(lia)) as (q & Gq).
  assert (Rp : reproduces p) by (apply (proj1 (Forall_forall _ _) R); eapply HeapThm.getitem_In; eassumption). assert (Rq : reproduces q) by (apply (proj1 (Forall_forall _ _) R); eapply HeapThm.getitem_In; eassumption).
  destruct Rp as (rp & lp & A1 & A2 & _), Rq as (rq & lq & B1 & B2 & _). destruct angle; cbn [two_of compute].
  - rewrite (A2_make t i j p q rp rq So Gp Gq A1 B1). cbn [rmap]. eauto.
  - rewrite (S2_make t i j p q lp lq So Gp Gq A2 B2). cbn [rmap]. eauto.
Qed.
Lemma conv_exists : Forall has_spinors s0 -> exists c, conversion_generators s0 = Ok c.
Proof.
  intros Hs. destruct (make_ok s0 None Hs) as (S & E). { cbn [mask_of]. rewrite repeat_length. lia. }
  destruct (make_built _ _ _ E) as (L & R & So). unfold conversion_generators. rewrite E. cbn [rbind].
  assert (G : forall angle, exists l, inv_items (letter angle) (if angle then c_A2 S else c_S2 S) (pairs zn) = Ok l).
  { intros angle. unfold inv_items. apply PhaseThm.rmapM_ok_all. intros [k p] I. apply in_combine_r in I. cbn [fst snd]. assert (J := I). rewrite pairs_triu in J. apply in_map_iff in J. destruct J as ([a b] & Ep & _). cbn [fst snd] in Ep. subst p. apply pairs_In in I.
    destruct (bracket_ok S angle (a + 1) (b + 1) So R (proj1 I) ltac:(rewrite L; exact (proj2 I))) as (x & Ex). destruct angle; cbn [two_of compute] in Ex; [destruct (c_A2 S (a + 1) (b + 1))|destruct (c_S2 S (a + 1) (b + 1))]; try discriminate; cbn [rmap]; eauto. }
  destruct (G true) as (a & Ea), (G false) as (b & Eb). cbn [letter] in Ea, Eb. rewrite Ea. cbn [rbind]. rewrite Eb. cbn [rbind]. eauto.
Qed.
Lemma conv_graph {K : Fld} (R0 : K0 -> K -> Prop) (RR : ring_rel K0 K R0) (Fu : functional R0) c (t : ps K) d w : conversion_generators s0 = Ok c -> length t = length s0 -> Forall reproduces t -> analytical_subs_d t = Ok d ->
  (converted R0 m (given d) w c <-> brackets_are t w).
Proof.
  intros Ec L R D. destruct (conv_parts c Ec) as (S & ES & In_c). destruct (make_built _ _ _ ES) as (LS & RS & SoS).
  assert (P := make_prel R0 RR s0 None S t d ES L R D (fun j x y H _ _ => ltac:(destruct H as (? & X & _); discriminate X))).
  assert (Rel : forall angle i j x, compute S (two_of angle i j) = Ok (VS x) -> exists y, compute t (two_of angle i j) = Ok (VS y) /\ subst R0 (given d) m x y).
  { intros angle i j x Ex. assert (Q := rel_compute (subst R0 (given d) m) (subst_ring R0 RR (given d) m) S t P (two_of angle i j)).
    destruct (rrel_ok _ _ _ _ Q Ex) as (v & Ev & Rv). destruct v as [y| | |]; cbn in Rv; try contradiction. exists y. auto. }
  split.
  - intros H i j H1 H2. rewrite L in *.
    assert (G : forall angle, exists y, compute t (two_of angle i j) = Ok (VS y) /\ w (var_name (letter angle) (pair_number zn i j)) = Some y).
    { intros angle. destruct (bracket_ok S angle i j SoS RS H1 ltac:(rewrite LS; exact H2)) as (x & Ex). destruct (Rel angle i j x Ex) as (y & Ey & Sy). exists y. split; [exact Ey|].
      destruct (H (var_name (letter angle) (pair_number zn i j)) x) as (y' & Sy' & W); [apply In_c; exists angle, i, j; auto|]. rewrite W. f_equal. exact (subst_fun R0 RR (given d) m Fu _ _ _ Sy' Sy). }
    destruct (G true) as (a & Ea & Wa), (G false) as (b & Eb & Wb). exists a, b. auto.
  - intros H A x I. apply In_c in I as (angle & i & j & H1 & H2 & -> & Ex). destruct (Rel angle i j x Ex) as (y & Ey & Sy). exists y. split; [exact Sy|].
    destruct (H i j H1 ltac:(rewrite L; exact H2)) as (a & b & Ea & Wa & Eb & Wb). rewrite L in *. destruct angle; cbn [two_of letter] in *; congruence.
Qed.
Lemma values_brackets {K : Fld} (t : ps K) d : invariant_values t = Ok d -> brackets_are t (fun x => dict_get x d).
Proof.
  intros E i j H1 H2. assert (P := pairs_number (Z.of_nat (length t)) i j H1 H2). assert (Q := pair_number_pos (Z.of_nat (length t)) i j H1 H2).
  destruct (values_get t d (pair_number (Z.of_nat (length t)) i j - 1) i j 65 E ltac:(lia) P (or_introl eq_refl)) as (a & Ea & Ga).
  destruct (values_get t d (pair_number (Z.of_nat (length t)) i j - 1) i j 66 E ltac:(lia) P (or_intror eq_refl)) as (b & Eb & Gb).
  replace (pair_number (Z.of_nat (length t)) i j - 1 + 1) with (pair_number (Z.of_nat (length t)) i j) in * by lia. unfold br in *. cbn [Z.eqb Pos.eqb] in *.
  exists a, b. cbn [compute]. rewrite Ea, Eb. cbn [rmap]. auto.
Qed.
Lemma spinor_zero {K : Fld} (R0 : K0 -> K -> Prop) (RR : ring_rel K0 K R0) (Fu : functional R0) el covs mc ts (t : ps K) w :
  spinor_generators s0 el covs mc = Ok ts -> (forall c g, conversion_generators s0 = Ok c -> lips_generators s0 covs mc = Ok g -> consequences R0 (length s0) m c g (el c g)) -> length t = length s0 -> Forall reproduces t ->
  Forall (vanishes t) covs -> (mc = true -> total_mom t = mzero) -> brackets_are t w ->
  forall x, In x ts -> exists e, x = text e /\ sum e /\ vars (invariant_var zn) e /\ value w e = Some 0%fld.
Proof.
  intros E SE L R V M B x I. unfold spinor_generators in E. destruct (conversion_generators s0) as [c|] eqn:Ec; cbn [rbind] in E; [|discriminate]. destruct (lips_generators s0 covs mc) as [g|] eqn:Eg; cbn [rbind] in E; [|discriminate]. injection E as <-.
  destruct (point_spinors (K := K) (length s0) t (conj L R)) as (d & D). destruct (SE c g eq_refl eq_refl x I) as (e & -> & Se & Ve & H). exists e. repeat (split; [first [reflexivity|assumption]|]).
  apply (H (given d)); [apply (conv_graph R0 RR Fu c t d w Ec L R D), B|]. intros y. apply (proj2 (gens_values R0 RR Fu s0 covs mc g t d Eg L R D) (conj V M)).
Qed.
End Conversion.
