(* Gram determinants: C28, C27, C32. *)
From Coq Require Import List ZArith Bool Arith Lia Ring Field Permutation.
From Verif Require Import Base Fld Particle ParticleSpec ParticleThm Index IndexThm Phase PhaseSpec PhaseThm Det DetSpec DetThm Arcs ArcsSpec ArcsThm Compute ComputeSpec ComputeThm ComputeThm2 ComputeThm3.
Import ListNotations.

Section Thm.
Context {K : Fld}.
Open Scope fld_scope.
Add Field Kg : (fth K).

Definition gf (x y : m2 K) : K := mtr (mmul x (adj y)) / 2.
(* the determinant of the products of two lists of momenta *)
Definition F (U V : list (m2 K)) : K := det (length U) (fun i j => gf (nth i U mzero) (nth j V mzero)).

Lemma gf_lin_l (x y : K) (a b v : m2 K) : gf (madd (mscale x a) (mscale y b)) v = x * gf a v + y * gf b v.
Proof. unfold gf, adj. unfold_vec. field. apply two_nz'. Qed.
Lemma gf_lin_r (x y : K) (a b v : m2 K) : gf v (madd (mscale x a) (mscale y b)) = x * gf v a + y * gf v b.
Proof. unfold gf, adj. unfold_vec. field. apply two_nz'. Qed.

Lemma nth_swap {A} (U1 : list A) a b U2 d i :
  nth i (U1 ++ b :: a :: U2) d = nth (tau (length U1) i) (U1 ++ a :: b :: U2) d.
Proof.
  unfold tau. destruct (Nat.eqb_spec i (length U1)); [subst|destruct (Nat.eqb_spec i (S (length U1))); [subst|]].
  - rewrite (app_nth2 U1 (b :: a :: U2)) by lia. rewrite (app_nth2 U1 (a :: b :: U2)) by lia.
    replace (S (length U1) - length U1)%nat with 1%nat by lia. rewrite Nat.sub_diag. reflexivity.
  - rewrite (app_nth2 U1 (b :: a :: U2)) by lia. rewrite (app_nth2 U1 (a :: b :: U2)) by lia.
    replace (S (length U1) - length U1)%nat with 1%nat by lia. rewrite Nat.sub_diag. reflexivity.
  - destruct (Nat.lt_ge_cases i (length U1)).
    + rewrite !app_nth1 by lia. reflexivity.
    + rewrite !app_nth2 by lia. destruct (i - length U1)%nat as [|[|k]] eqn:E; [lia|lia|reflexivity].
Qed.
Lemma F_swap_l U1 a b U2 V : F (U1 ++ b :: a :: U2) V = - F (U1 ++ a :: b :: U2) V.
Proof.
  unfold F. rewrite !app_length. cbn [length].
  rewrite <- (det_row_swap (length U1 + S (S (length U2))) (length U1)) by lia.
  apply det_ext. intros i j. rewrite nth_swap. reflexivity.
Qed.
Lemma F_swap_r U V1 a b V2 : length U = length (V1 ++ a :: b :: V2) ->
  F U (V1 ++ b :: a :: V2) = - F U (V1 ++ a :: b :: V2).
Proof.
  intros L. rewrite app_length in L. cbn in L. unfold F.
  rewrite <- (det_col_swap (length U) (length V1)) by lia.
  apply det_ext. intros i j. rewrite nth_swap. reflexivity.
Qed.
Lemma nth_at {A} (l1 : list A) x l2 d : nth (length l1) (l1 ++ x :: l2) d = x.
Proof. rewrite app_nth2, Nat.sub_diag by lia. reflexivity. Qed.
Lemma nth_not {A} (l1 : list A) x y l2 d i : i <> length l1 -> nth i (l1 ++ x :: l2) d = nth i (l1 ++ y :: l2) d.
Proof.
  intros N. destruct (Nat.lt_ge_cases i (length l1)); [rewrite !app_nth1 by lia; reflexivity|].
  rewrite !app_nth2 by lia. destruct (i - length l1)%nat eqn:E; [lia|reflexivity].
Qed.
Lemma F_lin_l U1 x y a b U2 V :
  F (U1 ++ madd (mscale x a) (mscale y b) :: U2) V = x * F (U1 ++ a :: U2) V + y * F (U1 ++ b :: U2) V.
Proof.
  unfold F. rewrite !app_length. cbn [length]. apply (det_row_lin _ (length U1)); [lia| |].
  - intros i j N. split; f_equal; apply nth_not; exact N.
  - intros j. rewrite !nth_at. apply gf_lin_l.
Qed.
Lemma F_lin_r U V1 x y a b V2 : length U = length (V1 ++ a :: V2) ->
  F U (V1 ++ madd (mscale x a) (mscale y b) :: V2) = x * F U (V1 ++ a :: V2) + y * F U (V1 ++ b :: V2).
Proof.
  intros L. rewrite app_length in L. cbn in L. unfold F. apply (det_col_lin _ (length V1)); [lia| |].
  - intros i j N. split; f_equal; apply nth_not; exact N.
  - intros j. rewrite !nth_at. apply gf_lin_r.
Qed.
Lemma self_opp (x : K) : x = - x -> x = 0.
Proof.
  intros H. assert (E : 2 * x = 0). { transitivity (x + x); [ring|]. rewrite H at 2. ring. }
  transitivity (2 * x / 2); [field; apply two_nz'|rewrite E; field; apply two_nz'].
Qed.
(* generic: a function of a list that is odd under adjacent exchanges *)
Lemma odd_perm (f : list (m2 K) -> K) U U' : (forall U1 a b U2, length (U1 ++ a :: b :: U2) = length U -> f (U1 ++ b :: a :: U2) = - f (U1 ++ a :: b :: U2)) ->
  Permutation U U' -> f U' = f U \/ f U' = - f U.
Proof.
  intros H P. apply Permutation_Permutation_transp in P. revert H. induction P as [l|x y l1 l2|l l' l'' P1 IH1 P2 IH2]; intros H.
  - left; reflexivity.
  - right. apply H. rewrite !app_length. cbn. lia.
  - assert (L : length l' = length l). { apply Permutation_length, Permutation_sym, Permutation_Permutation_transp, P1. }
    destruct (IH1 H) as [E1|E1]; (destruct (IH2 ltac:(rewrite L; exact H)) as [E2|E2]); rewrite E2, E1; [left|right|right|left]; ring.
Qed.
Lemma odd_repeat (f : list (m2 K) -> K) U a : (forall U1 a b U2, length (U1 ++ a :: b :: U2) = S (length U) -> f (U1 ++ b :: a :: U2) = - f (U1 ++ a :: b :: U2)) ->
  In a U -> f (U ++ [a]) = 0.
Proof.
  intros H I. apply in_split in I as (U1 & U2 & ->).
  assert (P : Permutation (a :: a :: U1 ++ U2) ((U1 ++ a :: U2) ++ [a])).
  { rewrite <- app_assoc. cbn. rewrite <- Permutation_middle. constructor. rewrite app_assoc. symmetry. rewrite Permutation_app_comm. reflexivity. }
  assert (Z : f (a :: a :: U1 ++ U2) = 0).
  { apply self_opp. apply (H [] a a (U1 ++ U2)). cbn. rewrite !app_length. cbn. lia. }
  assert (Ho : forall V1 x y V2, length (V1 ++ x :: y :: V2) = length (a :: a :: U1 ++ U2) -> f (V1 ++ y :: x :: V2) = - f (V1 ++ x :: y :: V2)).
  { intros V1 x y V2 L. apply H. rewrite L. cbn [length]. rewrite !app_length. cbn [length]. lia. }
  destruct (odd_perm f _ _ Ho P) as [E|E]; rewrite E, Z; ring.
Qed.
Lemma madd_scale1 (a b : m2 K) : madd a b = madd (mscale 1 a) (mscale 1 b).
Proof. unfold_vec. apply m2_ext; cbn; ring. Qed.
Lemma mopp_scale (a : m2 K) : mopp a = madd (mscale (- (1)) a) (mscale 0 a).
Proof. unfold_vec. apply m2_ext; cbn; ring. Qed.
(* f additive in its last entry and odd: replacing it by minus the sum of all entries negates *)
Lemma odd_last (f : list (m2 K) -> K) U u :
  (forall U1 a b U2, length (U1 ++ a :: b :: U2) = S (length U) -> f (U1 ++ b :: a :: U2) = - f (U1 ++ a :: b :: U2)) ->
  (forall x y a b, f (U ++ [madd (mscale x a) (mscale y b)]) = x * f (U ++ [a]) + y * f (U ++ [b])) ->
  f (U ++ [mopp (madd (msum U) u)]) = - f (U ++ [u]).
Proof.
  intros Ho Hl. rewrite mopp_scale, Hl, madd_scale1, Hl.
  assert (Z : forall W, incl W U -> f (U ++ [msum W]) = 0).
  { induction W as [|w W IH]; intros I.
    - cbn. replace (mzero : m2 K) with (madd (mscale 0 mzero) (mscale 0 (mzero : m2 K))) by (unfold_vec; apply m2_ext; cbn; ring). rewrite Hl. ring.
    - cbn [msum fold_right]. change (fold_right madd mzero W) with (msum W). rewrite madd_scale1, Hl, IH by (intros z Hz; apply I; right; exact Hz).
      rewrite (odd_repeat f U w Ho) by (apply I; left; reflexivity). ring. }
  rewrite Z by (intros z Hz; exact Hz). ring.
Qed.
(* the Gram determinant of a list of momenta, all but the last *)
Lemma F_last U u : F (U ++ [mopp (madd (msum U) u)]) (U ++ [mopp (madd (msum U) u)]) = F (U ++ [u]) (U ++ [u]).
Proof.
  set (k := mopp (madd (msum U) u)).
  assert (E1 : F (U ++ [k]) (U ++ [k]) = - F (U ++ [u]) (U ++ [k])).
  { apply (odd_last (fun X => F X (U ++ [k])) U u); [intros; apply F_swap_l|intros; apply F_lin_l]. }
  assert (E2 : F (U ++ [u]) (U ++ [k]) = - F (U ++ [u]) (U ++ [u])).
  { apply (odd_last (fun X => F (U ++ [u]) X) U u).
    - intros U1 a b U2 L. apply F_swap_r. rewrite L, app_length. cbn. lia.
    - intros x y a b. apply F_lin_r. rewrite !app_length. reflexivity. }
  rewrite E1, E2. ring.
Qed.
Lemma F_perm U U' : Permutation U U' -> F U' U' = F U U.
Proof.
  intros P. apply Permutation_Permutation_transp in P. induction P as [l|x y l1 l2|l l' l'' P1 IH1 P2 IH2]; [reflexivity| |congruence].
  rewrite F_swap_l, F_swap_r by (rewrite !app_length; cbn; lia). ring.
Qed.
(* all corners but the last *)
Definition gram (ms : list (m2 K)) : K := alt (length ms) * F (removelast ms) (removelast ms).
Lemma removelast_last' {A} (l : list A) x : removelast (l ++ [x]) = l.
Proof. apply removelast_last. Qed.
Lemma gram_first ms ms' k : Permutation ms ms' -> gram (ms ++ [k]) = gram (ms' ++ [k]).
Proof.
  intros P. unfold gram. rewrite !removelast_last, !app_length. rewrite (Permutation_length P), (F_perm ms ms' P). reflexivity.
Qed.
Lemma gram_perm ms ms' : Permutation ms ms' -> msum ms = mzero -> gram ms = gram ms'.
Proof.
  intros P. apply Permutation_Permutation_transp in P. induction P as [l|x y l1 l2|l l' l'' P1 IH1 P2 IH2]; intros Z; [reflexivity| |].
  - destruct l2 as [|z0 l2'].
    + unfold gram. rewrite !app_length. cbn [length]. f_equal.
      change (l1 ++ [y; x]) with (l1 ++ [y] ++ [x]). change (l1 ++ [x; y]) with (l1 ++ [x] ++ [y]).
      rewrite !app_assoc, !removelast_last.
      assert (E : x = mopp (madd (msum l1) y)).
      { rewrite msum_app in Z. cbn in Z. destruct x, y, (msum l1). unfold_vec; unfold madd, mzero in Z; cbn in *. injection Z as Z0 Z1 Z2 Z3.
        apply m2_ext; cbn; match goal with |- ?a = - (?b + ?c) => assert (H : b + (c + (a + 0)) = 0) by assumption; transitivity ((b + (c + (a + 0))) - b - c); [ring|rewrite H; ring] end. }
      rewrite E. symmetry. apply F_last.
    + destruct (exists_last (l := z0 :: l2')) as (l3 & z & ->); [discriminate|].
      unfold gram. rewrite !app_length. cbn [length]. f_equal.
      replace (l1 ++ y :: x :: l3 ++ [z]) with ((l1 ++ y :: x :: l3) ++ [z]) by (rewrite <- app_assoc; reflexivity).
      replace (l1 ++ x :: y :: l3 ++ [z]) with ((l1 ++ x :: y :: l3) ++ [z]) by (rewrite <- app_assoc; reflexivity).
      rewrite !removelast_last. apply F_perm. apply Permutation_app_head. constructor.
  - rewrite IH1, IH2; [reflexivity| |exact Z].
    rewrite <- Z. apply msum_perm. symmetry. apply Permutation_Permutation_transp. exact P1.
Qed.

(* ---- the model ---- *)
Implicit Types (s : ps K).
Lemma mom_sum_flag b s l : sound s -> mom_sum b s l = rmap (flagm b) (mom_sum false s l).
Proof.
  intros S. destruct l as [|k l]; [reflexivity|]. unfold mom_sum. set (kl := k :: l). clearbody kl.
  rewrite (rmapM_ext (mom b s) (fun k => rmap (flagm b) (mom false s k))) by (intros; apply mom_flag, sound_barred, S).
  rewrite (rmapM_rmap (mom false s) (flagm b)). destruct (rmapM (mom false s) kl) as [ms|]; [|reflexivity]. cbn [rmap rbind]. f_equal.
  destruct b; cbn [flagm]; [apply msum_adj|]. rewrite map_id. reflexivity.
Qed.
Lemma nth_removelast {A} (l : list A) d i : (i < length l - 1)%nat -> nth i (removelast l) d = nth i l d.
Proof.
  intros H. destruct l as [|x l]; [cbn in H; lia|]. destruct (exists_last (l := x :: l)) as (l' & y & E); [discriminate|].
  rewrite E in *. rewrite removelast_last, app_nth1; [reflexivity|]. rewrite app_length in H. cbn in H. lia.
Qed.
Lemma length_removelast {A} (l : list A) : length (removelast l) = (length l - 1)%nat.
Proof.
  destruct l as [|x l]; [reflexivity|]. destruct (exists_last (l := x :: l)) as (l' & y & ->); [discriminate|].
  rewrite removelast_last, app_length. cbn. lia.
Qed.
Lemma delta_gram s cs ms : sound s -> rmapM (mom_sum false s) cs = Ok ms -> c_delta s cs = Ok (gram ms).
Proof.
  intros S H. unfold c_delta. rewrite H. cbn [rbind].
  rewrite (rmapM_ext (mom_sum true s) (fun l => rmap adj (mom_sum false s l))) by (intros; apply mom_sum_flag, S).
  rewrite (rmapM_rmap (mom_sum false s) adj), H. cbn [rmap rbind]. unfold gram, F.
  rewrite length_removelast. pose proof (rmapM_length _ _ _ H) as L. rewrite L. f_equal. f_equal.
  apply det_ext_lt. intros i j Hi Hj. unfold gf. rewrite !nth_removelast by lia.
  f_equal. f_equal. f_equal. replace (mzero : m2 K) with (adj (mzero : m2 K)) at 1 by (unfold adj; unfold_vec; apply m2_ext; cbn; ring).
  apply map_nth.
Qed.
Lemma delta_inv s cs x : sound s -> c_delta s cs = Ok x -> exists ms, rmapM (mom_sum false s) cs = Ok ms /\ x = gram ms.
Proof.
  intros S H. destruct (rmapM (mom_sum false s) cs) as [ms|] eqn:E; [|unfold c_delta in H; rewrite E in H; discriminate].
  exists ms. split; [reflexivity|]. rewrite (delta_gram s cs ms S E) in H. congruence.
Qed.
Lemma delta_first s cs cs' k x : sound s -> Permutation cs cs' -> c_delta s (cs ++ [k]) = Ok x -> c_delta s (cs' ++ [k]) = Ok x.
Proof.
  intros S P H. apply delta_inv in H as (ms & E & ->); [|exact S].
  apply rmapM_split in E as (r1 & y & r2 & E1 & Ey & E2 & ->). cbn in E2. inversion E2; subst r2.
  destruct (rmapM_perm (mom_sum false s) cs cs' P r1 E1) as (r1' & E1' & P').
  rewrite (delta_gram s (cs' ++ [k]) (r1' ++ [y])); [|exact S|apply rmapM_join; auto]. f_equal. symmetry. apply gram_first, P'.
Qed.
Lemma mom_sum_app b s l l' x y : mom_sum b s l = Ok x -> mom_sum b s l' = Ok y -> mom_sum b s (l ++ l') = Ok (madd x y).
Proof.
  unfold mom_sum. destruct l as [|k l]; [discriminate|]. destruct l' as [|k' l']; [discriminate|]. set (u := k :: l). set (v := k' :: l').
  destruct (rmapM (mom b s) u) as [a|] eqn:Ea; [|discriminate]. destruct (rmapM (mom b s) v) as [c|] eqn:Ec; [|discriminate].
  cbn [rbind]. intros Hx Hy. unfold u at 1. cbn [app]. unfold v in *. rewrite (rmapM_join (mom b s) u k' l' a) with (y := hd mzero c) (r2 := tl c); [|exact Ea|..].
  - cbn [rbind]. cbn in Ec. destruct (mom b s k'); [|discriminate]. destruct (rmapM (mom b s) l'); [|discriminate]. inversion Ec; subst c. cbn [hd tl].
    rewrite msum_app. congruence.
  - cbn in Ec. destruct (mom b s k'); [|discriminate]. destruct (rmapM (mom b s) l'); [|discriminate]. inversion Ec; reflexivity.
  - cbn in Ec. destruct (mom b s k'); [|discriminate]. destruct (rmapM (mom b s) l'); [|discriminate]. inversion Ec; reflexivity.
Qed.
Lemma mom_sum_concat b s cs : forall ms, cs <> [] -> rmapM (mom_sum b s) cs = Ok ms -> mom_sum b s (concat cs) = Ok (msum ms).
Proof.
  induction cs as [|l cs IH]; intros ms N; [congruence|]. cbn [rmapM concat].
  destruct (mom_sum b s l) as [x|] eqn:E; [|discriminate]. destruct (rmapM (mom_sum b s) cs) as [ys|] eqn:Es; [|discriminate].
  cbn. intros H; inversion H; subst ms. destruct cs as [|l' cs].
  - cbn in Es. inversion Es; subst. cbn [concat]. rewrite app_nil_r, E. cbn. rewrite madd_0_r. reflexivity.
  - cbn [fold_right]. apply (mom_sum_app b s l _ x (msum ys) E). apply IH; [discriminate|reflexivity].
Qed.
Lemma delta_perm s cs cs' x : sound s -> Permutation cs cs' -> mom_sum false s (concat cs) = Ok mzero ->
  c_delta s cs = Ok x -> c_delta s cs' = Ok x.
Proof.
  intros S P Z H. apply delta_inv in H as (ms & E & ->); [|exact S].
  destruct (rmapM_perm (mom_sum false s) cs cs' P ms E) as (ms' & E' & P').
  assert (N : cs <> []) by (intros ->; discriminate).
  rewrite (mom_sum_concat false s cs ms N E) in Z.
  rewrite (delta_gram s cs' ms' S E'). f_equal. symmetry. apply gram_perm; [exact P'|congruence].
Qed.
Lemma mom_sum_all s l : s <> [] -> Permutation l (upto (length s)) -> mom_sum false s l = Ok (total_mom s).
Proof.
  intros N P. destruct (rmapM_perm (mom false s) _ _ (Permutation_sym P) _ (mom_all s)) as (r & H & Pr).
  unfold mom_sum. destruct l as [|k l].
  - apply Permutation_nil in P. destruct s; [congruence|discriminate].
  - rewrite H. cbn [rbind]. f_equal. unfold total_mom. symmetry. apply msum_perm, Pr.
Qed.
Lemma mdet_gf (a : m2 K) : mdet a = gf a a.
Proof. unfold gf, adj. unfold_vec. field. apply two_nz'. Qed.
Lemma gf_polar (a b : m2 K) : gf a b = (mdet (madd a b) - mdet a - mdet b) / 2.
Proof. unfold gf, adj. unfold_vec. field. apply two_nz'. Qed.
Lemma gf_sym (a b : m2 K) : gf a b = gf b a.
Proof. unfold gf, adj. unfold_vec. field. apply two_nz'. Qed.
Lemma S_value s l a : mom_sum false s l = Ok a -> c_S s l = Ok (mdet a).
Proof. intros H. unfold c_S. rewrite H. cbn [rbind]. rewrite det2_mdet. reflexivity. Qed.
Lemma S_inv s l x : c_S s l = Ok x -> exists a, mom_sum false s l = Ok a /\ x = mdet a.
Proof. unfold c_S. destruct (mom_sum false s l) as [a|]; [|discriminate]. cbn [rbind]. rewrite det2_mdet. intros H; inversion H; eauto. Qed.
Lemma delta_three s A B C sA sB sAB sC : sound s ->
  c_S s A = Ok sA -> c_S s B = Ok sB -> c_S s (A ++ B) = Ok sAB -> c_S s C = Ok sC ->
  c_delta s [A; B; C] = Ok ((sAB - sA - sB) / 2 * ((sAB - sA - sB) / 2) - sA * sB).
Proof.
  intros S HA HB HAB HC. apply S_inv in HA as (a & HA & ->). apply S_inv in HB as (b & HB & ->). apply S_inv in HC as (c & HC & ->).
  rewrite (S_value s (A ++ B) (madd a b) (mom_sum_app false s A B a b HA HB)) in HAB. inversion HAB; subst sAB.
  rewrite (delta_gram s [A; B; C] [a; b; c] S) by (cbn; rewrite HA, HB, HC; reflexivity). f_equal.
  unfold gram, F. cbn [removelast length]. rewrite det_SS. cbn. unfold lsum, minor, alt. cbn. rewrite (gf_sym b a), !gf_polar.
  unfold_vec. field. apply two_nz'.
Qed.
Lemma delta3_delta s ijk l0 l1 l2 k : sound s -> arcs (Datatypes.S (length s)) (zlen s) ijk = Ok (l0, l1, l2) -> mom_sum false s l2 = Ok k ->
  c_delta3 s ijk = c_delta s [l0; l1; l2].
Proof.
  intros S HA H2. unfold c_delta3. rewrite HA. cbn [rbind].
  destruct (mom_sum false s l0) as [a|e] eqn:E0; cbn [rbind]; [|unfold c_delta; cbn [rmapM]; rewrite E0; reflexivity].
  rewrite (mom_sum_flag true s l1 S). destruct (mom_sum false s l1) as [b|e] eqn:E1; cbn [rmap rbind]; [|unfold c_delta; cbn [rmapM]; rewrite E0, E1; reflexivity].
  assert (HAB := S_value s _ _ (mom_sum_app false s l0 l1 a b E0 E1)).
  rewrite (delta_three s l0 l1 l2 _ _ _ _ S (S_value _ _ _ E0) (S_value _ _ _ E1) HAB (S_value _ _ _ H2)). f_equal.
  rewrite !det2_mdet. cbn [flagm]. change (mtr (mmul a (adj b)) / 2) with (gf a b). rewrite gf_polar, mdet_adj. reflexivity.
Qed.
(* ---- C27 ---- *)
(* tr5^2 of four massless momenta *)
Lemma T5_square (r1 l1 r2 l2 r3 l3 r4 l4 : v2 K) :
  let p1 := outer (raise_r l1) (raise_r r1) in let p2 := outer (raise_r l2) (raise_r r2) in
  let p3 := outer (raise_r l3) (raise_r r3) in let p4 := outer (raise_r l4) (raise_r r4) in
  let s12 := mdet (madd p1 p2) in let s13 := mdet (madd p1 p3) in let s14 := mdet (madd p1 p4) in
  let s23 := mdet (madd p2 p3) in let s24 := mdet (madd p2 p4) in let s34 := mdet (madd p3 p4) in
  T5 p1 p2 p3 p4 * T5 p1 p2 p3 p4 =
  (s12 * s34 + s14 * s23 - s13 * s24) * (s12 * s34 + s14 * s23 - s13 * s24) - 2 * 2 * s12 * s23 * s34 * s14.
Proof.
  cbn zeta.
  set (X := mtr (mmul (mmul (mmul (adj (outer (raise_r l1) (raise_r r1))) (outer (raise_r l2) (raise_r r2))) (adj (outer (raise_r l3) (raise_r r3)))) (outer (raise_r l4) (raise_r r4)))).
  set (Y := mtr (mmul (mmul (mmul (outer (raise_r l1) (raise_r r1)) (adj (outer (raise_r l2) (raise_r r2)))) (outer (raise_r l3) (raise_r r3))) (adj (outer (raise_r l4) (raise_r r4))))).
  set (ang := fun u v : v2 K => vdot (raise_r u) v). set (sq := fun u v : v2 K => vdot u (raise_r v)).
  assert (S2 : forall r l r' l' : v2 K, mdet (madd (outer (raise_r l) (raise_r r)) (outer (raise_r l') (raise_r r'))) = ang r r' * sq l' l).
  { intros. unfold ang, sq, raise_r. unfold_vec. ring. }
  assert (EX : X = ang r2 r3 * sq l3 l4 * ang r4 r1 * sq l1 l2). { unfold X, ang, sq, adj, raise_r. unfold_vec. ring. }
  assert (EY : Y = ang r1 r2 * sq l2 l3 * ang r3 r4 * sq l4 l1). { unfold Y, ang, sq, adj, raise_r. unfold_vec. ring. }
  assert (As : forall u v : v2 K, ang u v = - ang v u) by (intros; unfold ang, raise_r; unfold_vec; ring).
  assert (Ss : forall u v : v2 K, sq u v = - sq v u) by (intros; unfold sq, raise_r; unfold_vec; ring).
  change (T5 _ _ _ _) with (X - Y). rewrite !S2.
  assert (E1 : (X - Y) * (X - Y) = (X + Y) * (X + Y) - 2 * 2 * X * Y) by ring. rewrite E1. clear E1.
  assert (E2 : X + Y = ang r1 r2 * sq l2 l1 * (ang r3 r4 * sq l4 l3) + ang r1 r4 * sq l4 l1 * (ang r2 r3 * sq l3 l2) - ang r1 r3 * sq l3 l1 * (ang r2 r4 * sq l4 l2)).
  { rewrite EX, EY. unfold ang, sq, raise_r. unfold_vec. ring. }
  rewrite E2. rewrite EX, EY. rewrite (As r4 r1), (Ss l3 l4), (Ss l1 l2), (Ss l2 l3). ring.
Qed.
Lemma mdet3 (a b c : m2 K) : mdet (madd a (madd b c)) = mdet (madd a b) + mdet (madd a c) + mdet (madd b c) - mdet a - mdet b - mdet c.
Proof. unfold_vec. ring. Qed.
Lemma mdet4 (a b c d : m2 K) : mdet (madd a (madd b (madd c d))) = mdet (madd a b) + mdet (madd a c) + mdet (madd a d) + mdet (madd b c) + mdet (madd b d) + mdet (madd c d)
   - 2 * mdet a - 2 * mdet b - 2 * mdet c - 2 * mdet d.
Proof. unfold_vec. ring. Qed.
Lemma mdet_outer (u v : v2 K) : mdet (outer u v) = 0.
Proof. unfold_vec. ring. Qed.
Lemma mdet_opp (a : m2 K) : mdet (mopp a) = mdet a.
Proof. unfold_vec. ring. Qed.
Lemma delta5_tr5 s : length s = 5%nat -> sound s -> Forall (fun p => reproduces p) s -> total_mom s = mzero ->
  exists x, c_tr5 s (leg 1) (leg 2) (leg 3) (leg 4) = Ok x /\ c_delta5 s = Ok (x * x).
Proof.
  intros L S R T. destruct s as [|p1 [|p2 [|p3 [|p4 [|p5 [|]]]]]]; try discriminate. set (s := [p1; p2; p3; p4; p5]) in *.
  assert (G : forall i p, getitem s i = Ok p -> reproduces p) by apply (proj1 (Forall_getitem _ _) R).
  exists (T5 (r2 p1) (r2 p2) (r2 p3) (r2 p4)). split.
  { apply tr5_first_value; auto; try lia; [apply (G 1%Z p1); reflexivity|apply leg_val; reflexivity..]. }
  unfold c_delta5.
  rewrite (S_value s [1; 2]%Z _ (mom_sum_2 false s 1 2 p1 p2 eq_refl eq_refl)), (S_value s [2; 3]%Z _ (mom_sum_2 false s 2 3 p2 p3 eq_refl eq_refl)),
    (S_value s [3; 4]%Z _ (mom_sum_2 false s 3 4 p3 p4 eq_refl eq_refl)), (S_value s [4; 5]%Z _ (mom_sum_2 false s 4 5 p4 p5 eq_refl eq_refl)),
    (S_value s [5; 1]%Z _ (mom_sum_2 false s 5 1 p5 p1 eq_refl eq_refl)). cbn [rbind].
  assert (E5 : r2 p5 = mopp (madd (r2 p1) (madd (r2 p2) (madd (r2 p3) (r2 p4))))).
  { unfold total_mom in T. cbn in T. apply madd_zero_opp. rewrite <- T. rewrite madd_0_r, !madd_assoc. reflexivity. }
  assert (Z5 : mdet (r2 p5) = 0). { destruct (G 5%Z p5 eq_refl) as (r & l & _ & _ & _ & -> & _). apply mdet_outer. }
  assert (E45 : mdet (madd (r2 p4) (r2 p5)) = mdet (madd (r2 p1) (madd (r2 p2) (r2 p3)))).
  { rewrite E5. rewrite <- (mdet_opp (madd (r2 p1) _)). f_equal. unfold_vec. apply m2_ext; cbn; ring. }
  assert (E51 : mdet (madd (r2 p5) (r2 p1)) = mdet (madd (r2 p2) (madd (r2 p3) (r2 p4)))).
  { rewrite E5. rewrite <- (mdet_opp (madd (r2 p2) _)). f_equal. unfold_vec. apply m2_ext; cbn; ring. }
  rewrite E45, E51. rewrite E5, mdet_opp, mdet4 in Z5. rewrite !mdet3.
  destruct (G 1%Z p1 eq_refl) as (r1 & l1 & _ & _ & _ & M1 & _). destruct (G 2%Z p2 eq_refl) as (r2' & l2 & _ & _ & _ & M2' & _).
  destruct (G 3%Z p3 eq_refl) as (r3 & l3 & _ & _ & _ & M3 & _). destruct (G 4%Z p4 eq_refl) as (r4 & l4 & _ & _ & _ & M4 & _).
  pose proof (T5_square r1 l1 r2' l2 r3 l3 r4 l4) as Sq. cbn zeta in Sq. rewrite <- M1, <- M2', <- M3, <- M4 in Sq. rewrite Sq. clear Sq.
  assert (Z1 : mdet (r2 p1) = 0) by (rewrite M1; apply mdet_outer). assert (Z2 : mdet (r2 p2) = 0) by (rewrite M2'; apply mdet_outer).
  assert (Z3 : mdet (r2 p3) = 0) by (rewrite M3; apply mdet_outer). assert (Z4 : mdet (r2 p4) = 0) by (rewrite M4; apply mdet_outer).
  rewrite Z1, Z2, Z3, Z4 in *. clear - Z5. f_equal.
  set (s12 := mdet (madd (r2 p1) (r2 p2))) in *. set (s13 := mdet (madd (r2 p1) (r2 p3))) in *. set (s14 := mdet (madd (r2 p1) (r2 p4))) in *.
  set (s23 := mdet (madd (r2 p2) (r2 p3))) in *. set (s24 := mdet (madd (r2 p2) (r2 p4))) in *. set (s34 := mdet (madd (r2 p3) (r2 p4))) in *.
  assert (E14 : s14 = - (s12 + s13 + s23 + s24 + s34)).
  { transitivity ((s12 + s13 + s14 + s23 + s24 + s34 - 2 * 0 - 2 * 0 - 2 * 0 - 2 * 0) - (s12 + s13 + s23 + s24 + s34)); [ring|]. rewrite Z5. ring. }
  rewrite E14. ring.
Qed.
(* ---- C32: A = arc of i, B = arc of j, C = arc of k ---- *)
Lemma omega_value s ijk l0 x l0' l1 l2 (s0 s1 s2 t : K) : arcs (Datatypes.S (length s)) (zlen s) ijk = Ok (l0, l1, l2) -> l0 = x :: l0' ->
  c_S s l0 = Ok s0 -> c_S s l1 = Ok s1 -> c_S s l2 = Ok s2 -> c_S s (l2 ++ [x]) = Ok t ->
  c_Omega s ijk = Ok (2 * s2 * s1 - (s2 + s1 - s0) * t).
Proof. intros HA -> H0 H1 H2 Ht. unfold c_Omega. rewrite HA. cbn [rbind]. rewrite H2, H1, H0, Ht. reflexivity. Qed.
Lemma pi_value s ijk x y l0' l1 l2 (a b : K) : arcs (Datatypes.S (length s)) (zlen s) ijk = Ok (x :: y :: l0', l1, l2) ->
  c_S s (l2 ++ [x]) = Ok a -> c_S s (l2 ++ [y]) = Ok b -> c_Pi s ijk = Ok (a - b).
Proof. intros HA Ha Hb. unfold c_Pi. rewrite HA. cbn [rbind]. rewrite Ha, Hb. reflexivity. Qed.
Lemma pi_short s ijk x l1 l2 : arcs (Datatypes.S (length s)) (zlen s) ijk = Ok ([x], l1, l2) -> c_Pi s ijk = Err IndexError.
Proof. intros HA. unfold c_Pi. rewrite HA. reflexivity. Qed.
Lemma chain_pair (rx lx ry ly : v2 K) (C : m2 K) :
  let X := outer (raise_r lx) (raise_r rx) in let Y := outer (raise_r ly) (raise_r ry) in
  vdot (vm (raise_r rx) (mmul (adj C) mone)) (raise_r ly) * vdot (vm (raise_r ry) (mmul (adj C) mone)) (raise_r lx) =
  (mdet (madd C X) - mdet C) * (mdet (madd C Y) - mdet C) - mdet C * mdet (madd X Y).
Proof. cbn zeta. unfold adj, raise_r, mone. unfold_vec. ring. Qed.
Lemma mom_sum_one b s k p : getitem s k = Ok p -> mom_sum b s [k] = Ok (if b then r2b p else r2 p).
Proof. intros G. unfold mom_sum. cbn [rmapM]. unfold mom. rewrite G. cbn. rewrite madd_0_r. reflexivity. Qed.
Lemma omega_pi_delta s ijk x y B c cs : sound s -> total_mom s = mzero -> massless_leg s x -> massless_leg s y ->
  arcs (Datatypes.S (length s)) (zlen s) ijk = Ok ([x; y], B, c :: cs) -> B <> [] ->
  Permutation ([x; y] ++ B ++ c :: cs) (upto (length s)) ->
  exists om pi de sA sB sC f g, c_Omega s ijk = Ok om /\ c_Pi s ijk = Ok pi /\ c_delta3 s ijk = Ok de /\
    c_S s [x; y] = Ok sA /\ c_S s B = Ok sB /\ c_S s (c :: cs) = Ok sC /\
    c_chain s OAng x [esum c cs] y CSq = Ok f /\ c_chain s OAng y [esum c cs] x CSq = Ok g /\
    2 * 2 * de = pi * pi + 2 * 2 * f * g /\ 2 * om = - (2 * 2 * de) - (sB + sC - sA) * pi.
Proof.
  intros S T (px & Gx & Rx) (py & Gy & Ry) HA NB P.
  pose proof Rx as (rx & lx & Hrx & Hlx & _ & Mx & Hrux & Hlux). pose proof Ry as (ry & ly & Hry & Hly & _ & My & Hruy & Hluy).
  assert (E0 : mom_sum false s [x; y] = Ok (madd (r2 px) (r2 py))) by (apply (mom_sum_2 false s x y px py Gx Gy)).
  destruct (mom_sum_compl s [x; y] (B ++ c :: cs)) as (m & n & Em & En & Emn); [discriminate|apply app_cons_nnil|exact P|].
  assert (exists b k, mom_sum false s B = Ok b /\ mom_sum false s (c :: cs) = Ok k) as (b & k & Eb & Ek).
  { clear - En NB. unfold mom_sum in En. destruct B as [|z B]; [congruence|]. cbn [app] in En. change (z :: B ++ c :: cs) with ((z :: B) ++ c :: cs) in En.
    destruct (rmapM (mom false s) ((z :: B) ++ c :: cs)) as [ms|] eqn:E; [|discriminate].
    apply rmapM_split in E as (r1 & w & r2 & E1 & Ew & E2 & ->). exists (msum r1), (msum (w :: r2)). split.
    - unfold mom_sum. rewrite E1. reflexivity.
    - unfold mom_sum. cbn [rmapM]. rewrite Ew, E2. reflexivity. }
  assert (En' := mom_sum_app false s B (c :: cs) b k Eb Ek). assert (n = madd b k) by congruence. subst n.
  assert (m = madd (r2 px) (r2 py)) by congruence. subst m. rewrite T in Emn.
  assert (Eb' : b = mopp (madd k (madd (r2 px) (r2 py)))).
  { apply madd_zero_opp. rewrite <- Emn. unfold_vec. apply m2_ext; cbn; ring. }
  assert (Ekx := mom_sum_app false s (c :: cs) [x] k (r2 px) Ek (mom_sum_one false s x px Gx)).
  assert (Eky := mom_sum_app false s (c :: cs) [y] k (r2 py) Ek (mom_sum_one false s y py Gy)).
  assert (Eek : entry_val false s (esum c cs) = Ok k) by (rewrite entry_esum; exact Ek).
  assert (Rk : rmapM (entry_val false s) [esum c cs] = Ok [k]) by (cbn; rewrite Eek; reflexivity).
  pose proof (sound_barred s S) as Ba.
  do 8 eexists.
  split; [apply (omega_value s ijk [x; y] x [y] B (c :: cs) _ _ _ _ HA eq_refl (S_value _ _ _ E0) (S_value _ _ _ Eb) (S_value _ _ _ Ek) (S_value _ _ _ Ekx))|].
  split; [apply (pi_value s ijk x y [] B (c :: cs) _ _ HA (S_value _ _ _ Ekx) (S_value _ _ _ Eky))|].
  split; [rewrite (delta3_delta s ijk [x; y] B (c :: cs) k S HA Ek);
          apply (delta_three s [x; y] B (c :: cs) _ _ _ _ S (S_value _ _ _ E0) (S_value _ _ _ Eb) (S_value _ _ _ (mom_sum_app false s [x; y] B _ _ E0 Eb)) (S_value _ _ _ Ek))|].
  split; [apply (S_value _ _ _ E0)|]. split; [apply (S_value _ _ _ Eb)|]. split; [apply (S_value _ _ _ Ek)|].
  split; [apply (chain_make s OAng x [esum c cs] y CSq px py [k] (raise_r rx) (raise_r ly)); auto; discriminate|].
  split; [apply (chain_make s OAng y [esum c cs] x CSq py px [k] (raise_r ry) (raise_r lx)); auto; discriminate|].
  cbn [mprod oflag flagm].
  assert (CP := chain_pair rx lx ry ly k). cbn zeta in CP. rewrite <- Mx, <- My in CP.
  assert (Zx : mdet (r2 px) = 0) by (rewrite Mx; apply mdet_outer). assert (Zy : mdet (r2 py) = 0) by (rewrite My; apply mdet_outer).
  assert (EAB : mdet (madd (madd (r2 px) (r2 py)) b) = mdet k). { rewrite Eb'. rewrite <- (mdet_opp k). f_equal. unfold_vec. apply m2_ext; cbn; ring. }
  assert (EB : mdet b = mdet (madd k (r2 px)) + mdet (madd k (r2 py)) + mdet (madd (r2 px) (r2 py)) - mdet k).
  { rewrite Eb', mdet_opp, mdet3, Zx, Zy. ring. }
  rewrite EAB, EB.
  split.
  - replace (2 * 2 * vdot (vm (raise_r rx) (mmul (adj k) mone)) (raise_r ly) * vdot (vm (raise_r ry) (mmul (adj k) mone)) (raise_r lx))
      with (2 * 2 * (vdot (vm (raise_r rx) (mmul (adj k) mone)) (raise_r ly) * vdot (vm (raise_r ry) (mmul (adj k) mone)) (raise_r lx))) by ring.
    rewrite CP. field. apply two_nz'.
  - field. apply two_nz'.
Qed.
Lemma mom_sum_range b s l : l <> [] -> (forall k, In k l -> (1 <= k <= zlen s)%Z) -> exists m, mom_sum b s l = Ok m.
Proof.
  intros N R. assert (exists ms, rmapM (mom b s) l = Ok ms) as (ms & E).
  { clear N. induction l as [|k l IH]; [exists []; reflexivity|]. destruct IH as (ms & E); [intros k' I; apply R; right; assumption|].
    destruct (getitem_ok s k) as (p & G & _); [apply R; left; reflexivity|].
    eexists. cbn [rmapM]. unfold mom at 1. rewrite G. cbn. rewrite E. reflexivity. }
  exists (msum ms). unfold mom_sum. destruct l; [congruence|]. rewrite E. reflexivity.
Qed.
Lemma arcs_nonempty n i j k A B C : three_arcs n i j k A B C -> A <> [] /\ B <> [] /\ C <> [].
Proof. intros (HA & HB & HC & _). repeat split; intros ->; discriminate. Qed.
Lemma arcs_sums s i j k A B C : three_arcs (length s) i j k A B C ->
  (exists a, mom_sum false s A = Ok a) /\ (exists b, mom_sum false s B = Ok b) /\ (exists c, mom_sum false s C = Ok c).
Proof.
  intros T. destruct (arcs_nonempty _ _ _ _ _ _ _ T) as (NA & NB & NC). destruct T as (_ & _ & _ & _ & _ & _ & P).
  assert (R : forall x, In x (A ++ B ++ C) -> (1 <= x <= zlen s)%Z). { intros x I. apply upto_In. apply (Permutation_in _ P I). }
  repeat split; apply mom_sum_range; auto; intros x I; apply R; rewrite !in_app_iff; auto.
Qed.
Lemma delta3_arcs s i j k A B C : sound s -> three_arcs (length s) i j k A B C -> c_delta3 s [i; j; k] = c_delta s [A; B; C] /\ exists x, c_delta3 s [i; j; k] = Ok x.
Proof.
  intros S T. destruct (arcs_sums s i j k A B C T) as ((a & Ea) & (b & Eb) & (c & Ec)).
  assert (HA := three_arcs_arcs (length s) i j k (Datatypes.S (length s)) A B C (Nat.lt_succ_diag_r _) T).
  assert (E := delta3_delta s [i; j; k] A B C c S HA Ec). split; [exact E|]. rewrite E.
  eexists. apply (delta_gram s [A; B; C] [a; b; c] S). cbn. rewrite Ea, Eb, Ec. reflexivity.
Qed.
Lemma delta3_perm s i j k A B C D cs : sound s -> total_mom s = mzero -> three_arcs (length s) i j k A B C -> Permutation [A; B; C] cs ->
  c_delta s cs = Ok D <-> c_delta3 s [i; j; k] = Ok D.
Proof.
  intros S T TA P. destruct (delta3_arcs s i j k A B C S TA) as (E & x & Ex). rewrite E in Ex |- *.
  assert (Z : mom_sum false s (concat [A; B; C]) = Ok mzero).
  { rewrite <- T. apply mom_sum_all; [intros ->; apply three_arcs_range in TA; cbn in TA; lia|cbn; rewrite app_nil_r; apply TA]. }
  rewrite (delta_perm s [A; B; C] cs x S P Z Ex), Ex. reflexivity.
Qed.
Lemma omega_arcs s i j k A' B C : three_arcs (length s) i j k (i :: A') B C ->
  exists a b c d : K, c_S s (i :: A') = Ok a /\ c_S s B = Ok b /\ c_S s C = Ok c /\ c_S s (C ++ [i]) = Ok d /\
    c_Omega s [i; j; k] = Ok (2 * c * b - (c + b - a) * d).
Proof.
  intros T. destruct (arcs_sums s i j k _ B C T) as ((a & Ea) & (b & Eb) & (c & Ec)).
  assert (HA := three_arcs_arcs (length s) i j k (Datatypes.S (length s)) _ B C (Nat.lt_succ_diag_r _) T).
  destruct (getitem_ok s i (three_arcs_range _ _ _ _ _ _ _ T)) as (p & G & _).
  do 4 eexists. split; [apply (S_value _ _ _ Ea)|]. split; [apply (S_value _ _ _ Eb)|]. split; [apply (S_value _ _ _ Ec)|].
  assert (D := S_value _ _ _ (mom_sum_app false s C [i] c _ Ec (mom_sum_one false s i p G))). split; [exact D|].
  apply (omega_value s [i; j; k] _ i A' B C _ _ _ _ HA eq_refl (S_value _ _ _ Ea) (S_value _ _ _ Eb) (S_value _ _ _ Ec) D).
Qed.
Lemma pi_arcs s i i' j k A' B C : three_arcs (length s) i j k (i :: i' :: A') B C ->
  exists d d' : K, c_S s (C ++ [i]) = Ok d /\ c_S s (C ++ [i']) = Ok d' /\ c_Pi s [i; j; k] = Ok (d - d').
Proof.
  intros T. destruct (arcs_sums s i j k _ B C T) as ((a & Ea) & (b & Eb) & (c & Ec)).
  assert (HA := three_arcs_arcs (length s) i j k (Datatypes.S (length s)) _ B C (Nat.lt_succ_diag_r _) T).
  destruct (getitem_ok s i (three_arcs_range _ _ _ _ _ _ _ T)) as (p & G & _).
  assert (R' : (1 <= i' <= zlen s)%Z).
  { destruct T as (_ & _ & _ & _ & _ & _ & P). apply upto_In, (Permutation_in _ P). right; left; reflexivity. }
  destruct (getitem_ok s i' R') as (p' & G' & _).
  assert (D := S_value _ _ _ (mom_sum_app false s C [i] c _ Ec (mom_sum_one false s i p G))).
  assert (D' := S_value _ _ _ (mom_sum_app false s C [i'] c _ Ec (mom_sum_one false s i' p' G'))).
  do 2 eexists. split; [exact D|]. split; [exact D'|]. apply (pi_value s [i; j; k] i i' A' B C _ _ HA D D').
Qed.
Lemma pi_short_arcs s i j k B C : three_arcs (length s) i j k [i] B C -> c_Pi s [i; j; k] = Err IndexError.
Proof. intros T. apply (pi_short s _ i B C), (three_arcs_arcs (length s) i j k (Datatypes.S (length s)) _ B C (Nat.lt_succ_diag_r _) T). Qed.
Lemma omega_pi_arcs s i i' j k B c cs : sound s -> total_mom s = mzero -> massless_leg s i -> massless_leg s i' ->
  three_arcs (length s) i j k [i; i'] B (c :: cs) ->
  exists om pi de sA sB sC f g, c_Omega s [i; j; k] = Ok om /\ c_Pi s [i; j; k] = Ok pi /\ c_delta3 s [i; j; k] = Ok de /\
    c_S s [i; i'] = Ok sA /\ c_S s B = Ok sB /\ c_S s (c :: cs) = Ok sC /\
    c_chain s OAng i [esum c cs] i' CSq = Ok f /\ c_chain s OAng i' [esum c cs] i CSq = Ok g /\
    2 * 2 * de = pi * pi + 2 * 2 * f * g /\ 2 * om = - (2 * 2 * de) - (sB + sC - sA) * pi.
Proof.
  intros S T M M' TA.
  assert (HA := three_arcs_arcs (length s) i j k (Datatypes.S (length s)) _ _ _ (Nat.lt_succ_diag_r _) TA).
  destruct (arcs_nonempty _ _ _ _ _ _ _ TA) as (_ & NB & _).
  apply (omega_pi_delta s [i; j; k] i i' B c cs S T M M' HA NB). apply TA.
Qed.
Lemma gram_partition s cs cs' x : sound s -> s <> [] -> total_mom s = mzero -> Permutation (concat cs) (upto (length s)) ->
  Permutation cs cs' -> c_delta s cs = Ok x -> c_delta s cs' = Ok x.
Proof. intros S N T P P'. apply delta_perm; auto. rewrite <- T. apply mom_sum_all; assumption. Qed.
(* tr5^2 of four of five momenta that add up to zero does not depend on which four *)
Definition sq5 (ms : list (m2 K)) : K :=
  match ms with [a; b; c; d; _] => T5 a b c d * T5 a b c d | _ => 0 end.
Lemma sq5_perm ms ms' : Permutation ms ms' -> length ms = 5%nat -> msum ms = mzero -> sq5 ms = sq5 ms'.
Proof.
  intros P. apply Permutation_Permutation_transp in P. induction P as [l|x y l1 l2|l l' l'' P1 IH1 P2 IH2]; intros L Z; [reflexivity| |].
  - assert (E5 : forall a b c d e : m2 K, msum [a; b; c; d; e] = mzero -> T5 a b c e * T5 a b c e = T5 a b c d * T5 a b c d).
    { intros a b c d e Z'. assert (E : e = mopp (madd a (madd b (madd c d)))).
      { apply madd_zero_opp. rewrite <- Z'. unfold msum; cbn. unfold_vec. apply m2_ext; cbn; ring. }
      assert (ET : T5 a b c e = - T5 a b c d) by (rewrite E; unfold T5, adj; unfold_vec; ring). rewrite ET. ring. }
    destruct l1 as [|a [|b [|c [|]]]]; cbn [app] in *.
    + destruct l2 as [|c [|d [|e [|]]]]; try discriminate. unfold sq5. rewrite (T5_swap12 y x). ring.
    + destruct l2 as [|d [|e [|]]]; try discriminate. unfold sq5. rewrite (T5_swap23 a y x). ring.
    + destruct l2 as [|e [|]]; try discriminate. unfold sq5. rewrite (T5_swap34 a b y x). ring.
    + destruct l2 as [|]; try discriminate. unfold sq5. symmetry. apply E5. exact Z.
    + exfalso. cbn [length app] in L. rewrite app_length in L. cbn in L. lia.
  - apply Permutation_Permutation_transp in P1. rewrite IH1, IH2; auto.
    + rewrite <- L. apply Permutation_length, Permutation_sym, P1.
    + rewrite <- Z. apply msum_perm. symmetry. exact P1.
Qed.
Lemma delta5_any s a b c d e : length s = 5%nat -> sound s -> Forall (fun p => reproduces p) s -> total_mom s = mzero ->
  Permutation [a; b; c; d; e] [1; 2; 3; 4; 5]%Z ->
  exists x, c_tr5 s (leg a) (leg b) (leg c) (leg d) = Ok x /\ c_delta5 s = Ok (x * x).
Proof.
  intros L S R T P.
  assert (V : forall x y z w ms m, rmapM (mom false s) [x; y; z; w; m] = Ok ms -> (1 <= x <= 9)%Z -> exists X Y Z W M, ms = [X; Y; Z; W; M] /\ c_tr5 s (leg x) (leg y) (leg z) (leg w) = Ok (T5 X Y Z W)).
  { intros x y z w ms m H Rx. cbn [rmapM] in H. unfold mom in H.
    destruct (getitem s x) as [px|] eqn:Gx; [|discriminate]. destruct (getitem s y) as [py|] eqn:Gy; [|discriminate].
    destruct (getitem s z) as [pz|] eqn:Gz; [|discriminate]. destruct (getitem s w) as [pw|] eqn:Gw; [|discriminate].
    destruct (getitem s m) as [pm|] eqn:Gm; [|discriminate]. cbn in H. inversion H; subst ms. do 5 eexists. split; [reflexivity|].
    apply tr5_first_value; auto; [apply (proj1 (Forall_getitem _ _) R x px Gx)|apply leg_val; assumption..]. }
  assert (EA : rmapM (mom false s) [1; 2; 3; 4; 5]%Z = Ok (map (fun p => r2 p) s)).
  { pose proof (mom_all s) as M. rewrite L in M. exact M. }
  destruct (rmapM_perm (mom false s) _ _ (Permutation_sym P) _ EA) as (ms' & H & Pr).
  assert (Ra : (1 <= a <= 9)%Z). { assert (I : In a [1; 2; 3; 4; 5]%Z) by (apply (Permutation_in _ P); left; reflexivity). cbn in I. lia. }
  destruct (V _ _ _ _ _ _ H Ra) as (X & Y & Z & W & M & -> & Et).
  destruct (V _ _ _ _ _ _ EA) as (X1 & Y1 & Z1 & W1 & M1 & E1 & Et1); [lia|].
  destruct (delta5_tr5 s L S R T) as (x & Ex & E5). rewrite Et1 in Ex. inversion Ex; subst x.
  eexists. split; [exact Et|]. rewrite E5. f_equal.
  rewrite E1 in Pr. apply (sq5_perm [X1; Y1; Z1; W1; M1] [X; Y; Z; W; M] Pr eq_refl). rewrite <- E1. exact T.
Qed.
Lemma sVS (r : result K) x : r = Ok x -> scalar (rmap VS r) = Ok x. Proof. intros ->. reflexivity. Qed.
Lemma sinv (r : result K) x : scalar (rmap VS r) = Ok x -> r = Ok x. Proof. destruct r; [|discriminate]. cbn. congruence. Qed.
End Thm.
