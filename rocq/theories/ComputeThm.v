(* Proofs about Compute.v: closed forms and algebraic laws of spinor chains. *)
From Coq Require Import List ZArith Bool Lia Ring Field Permutation Arith.
From Verif Require Import Base Fld Particle ParticleSpec ParticleThm Index IndexThm Phase PhaseSpec PhaseThm Det Arcs Compute ComputeSpec.
Import ListNotations.

Lemma rmap_ok {A B} (f : A -> B) x y : rmap f x = Ok y -> exists a, x = Ok a /\ y = f a.
Proof. destruct x; cbn; [|discriminate]. intros H; inversion H. eauto. Qed.
Lemma rbind_ok {A B} (x : result A) (f : A -> result B) y : rbind x f = Ok y -> exists a, x = Ok a /\ f a = Ok y.
Proof. destruct x; cbn; [eauto|discriminate]. Qed.

Section Thm.
Context {K : Fld}.
Open Scope fld_scope.
Add Field Kf3 : (fth K).
Implicit Types (s : ps K) (p q : particle K) (m : m2 K) (u v w : v2 K).

(* ---- 2x2 algebra ---- *)
Ltac mring := apply m2_ext; unfold adj; unfold_vec; cbn; ring.
Ltac vring := apply v2_ext; unfold adj, raise_r; unfold_vec; cbn; ring.
Lemma adj_mul (a : m2 K) (b : m2 K) : adj (mmul a b) = mmul (adj b) (adj a). Proof. mring. Qed.
Lemma adj_add (a : m2 K) (b : m2 K) : adj (madd a b) = madd (adj a) (adj b). Proof. mring. Qed.
Lemma adj_sub (a : m2 K) (b : m2 K) : adj (msub a b) = msub (adj a) (adj b). Proof. mring. Qed.
Lemma adj_one : adj mone = @mone K. Proof. mring. Qed.
Lemma mmul_assoc (a : m2 K) (b : m2 K) (c : m2 K) : mmul a (mmul b c) = mmul (mmul a b) c. Proof. mring. Qed.
Lemma mmul_1_r (a : m2 K) : mmul a mone = a. Proof. destruct a; mring. Qed.
Lemma mmul_1_l (a : m2 K) : mmul mone a = a. Proof. destruct a; mring. Qed.
Lemma mmul_adj_r (a : m2 K) : mmul a (adj a) = mscale (mdet a) mone. Proof. mring. Qed.
Lemma mmul_adj_l (a : m2 K) : mmul (adj a) a = mscale (mdet a) mone. Proof. mring. Qed.
Lemma vm_mmul v (a : m2 K) (b : m2 K) : vm v (mmul a b) = vm (vm v a) b. Proof. vring. Qed.
Lemma vm_one v : vm v mone = v. Proof. destruct v; vring. Qed.
Lemma vdot_vm v m w : vdot (vm v m) w = vdot v (mv m w). Proof. unfold_vec; ring. Qed.
Lemma mv_mmul (a : m2 K) (b : m2 K) v : mv (mmul a b) v = mv a (mv b v). Proof. vring. Qed.
Lemma mv_one v : mv mone v = v. Proof. destruct v; vring. Qed.
Lemma vdot_comm v w : vdot v w = vdot w v. Proof. unfold_vec; ring. Qed.
Lemma mT_mmul (a : m2 K) (b : m2 K) : mT (mmul a b) = mmul (mT b) (mT a). Proof. mring. Qed.
Lemma vm_mT v m : vm v (mT m) = mv m v. Proof. vring. Qed.
Lemma adj_mT m : adj (mT m) = mT (adj m). Proof. mring. Qed.
Lemma mtr_comm (a : m2 K) (b : m2 K) : mtr (mmul a b) = mtr (mmul b a). Proof. unfold_vec; ring. Qed.
Lemma mtr_adj (a : m2 K) : mtr (adj a) = mtr a. Proof. unfold adj; unfold_vec; ring. Qed.
Lemma mtr_mT (a : m2 K) : mtr (mT a) = mtr a. Proof. unfold_vec; ring. Qed.
Lemma adj_raise_same m v w : vdot (vm (raise_r v) m) w = - vdot (vm (raise_r w) (adj m)) v.
Proof. unfold adj, raise_r; unfold_vec; ring. Qed.
Lemma adj_lower_same m v w : vdot (vm v m) (raise_r w) = - vdot (vm w (adj m)) (raise_r v).
Proof. unfold adj, raise_r; unfold_vec; ring. Qed.
Lemma adj_mixed m v w : vdot (vm (raise_r v) m) (raise_r w) = vdot (vm w (adj m)) v.
Proof. unfold adj, raise_r; unfold_vec; ring. Qed.
Lemma mmul_madd_l (a : m2 K) (b : m2 K) (c : m2 K) : mmul (madd a b) c = madd (mmul a c) (mmul b c). Proof. mring. Qed.
Lemma mmul_madd_r (a : m2 K) (b : m2 K) (c : m2 K) : mmul a (madd b c) = madd (mmul a b) (mmul a c). Proof. mring. Qed.
Lemma mmul_msub_l (a : m2 K) (b : m2 K) (c : m2 K) : mmul (msub a b) c = msub (mmul a c) (mmul b c). Proof. mring. Qed.
Lemma mmul_msub_r (a : m2 K) (b : m2 K) (c : m2 K) : mmul a (msub b c) = msub (mmul a b) (mmul a c). Proof. mring. Qed.
Lemma mmul_outer u v (a : m2 K) : mmul (outer u v) a = outer u (vm v a). Proof. mring. Qed.

Lemma det2_mdet m : det2 m = mdet m.
Proof. unfold det2, det, lsum, minor, alt, mat_of_m2; cbn. unfold_vec. ring. Qed.

(* ---- closed forms ---- *)
Definition flagm (b : bool) m : m2 K := if b then adj m else m.
(* alternating product beginning with the lower-index matrices if b *)
Fixpoint mprod (b : bool) (ms : list (m2 K)) : m2 K :=
  match ms with [] => mone | m :: ms' => mmul (flagm b m) (mprod (negb b) ms') end.

Definition barred s : Prop := Forall (fun p => r2b p = adj (r2 p)) s.
Lemma consistent_barred s : Forall (fun p => consistent p) s -> barred s.
Proof. apply Forall_impl. intros p C. apply (cons_r2b _ C). Qed.

Lemma mom_flag b s k : barred s -> mom b s k = rmap (flagm b) (mom false s k).
Proof.
  intros B. unfold mom. destruct (getitem s k) as [p|e] eqn:G; [|reflexivity]. cbn. f_equal.
  destruct b; [|reflexivity]. apply (proj1 (Forall_getitem _ _) B k p G).
Qed.
Lemma entry_rest_flag b s l : barred s -> forall acc,
  entry_rest b s (flagm b acc) l = rmap (flagm b) (entry_rest false s acc l).
Proof.
  intros B. induction l as [|[sg k] l IH]; intros acc; cbn; [reflexivity|].
  rewrite (mom_flag b s k B). destruct (mom false s k) as [m|e]; [|reflexivity]. cbn.
  rewrite <- IH. f_equal. destruct b, sg; cbn; rewrite ?adj_add, ?adj_sub; reflexivity.
Qed.
Lemma entry_val_flag b s e : barred s -> entry_val b s e = rmap (flagm b) (entry_val false s e).
Proof.
  intros B. unfold entry_val. rewrite (mom_flag b s _ B). destruct (mom false s (fst e)) as [m|x]; [|reflexivity]. cbn.
  apply entry_rest_flag, B.
Qed.
Lemma mid_rest_flag b s es : barred s -> forall acc,
  mid_rest b s acc es = rmap (fun ms => mmul acc (mprod b ms)) (rmapM (entry_val false s) es).
Proof.
  intros B. revert b. induction es as [|e es IH]; intros b acc; cbn; [rewrite mmul_1_r; reflexivity|].
  rewrite (entry_val_flag b s e B). destruct (entry_val false s e) as [m|x]; [|reflexivity]. cbn.
  rewrite IH. destruct (rmapM (entry_val false s) es) as [ms|x]; [|reflexivity]. cbn. rewrite mmul_assoc. reflexivity.
Qed.
Lemma middle_flag b s es : barred s -> es <> [] ->
  middle b s es = rmap (mprod b) (rmapM (entry_val false s) es).
Proof.
  intros B N. destruct es as [|e es]; [congruence|]. cbn.
  rewrite (entry_val_flag b s e B). destruct (entry_val false s e) as [m|x]; [|reflexivity]. cbn.
  rewrite (mid_rest_flag _ s es B). destruct (rmapM (entry_val false s) es); reflexivity.
Qed.

(* ends of a chain *)
Definition orow (o : obr) p : option (v2 K) := match o with OAng => r_u p | _ => l_d p end.
Definition ccol (c : cbr) p : option (v2 K) := match c with CAng => r_d p | _ => l_u p end.

Definition chain_formula s o a es d c : result K :=
  rbind (getitem s a) (fun pa => rbind (rmapM (entry_val false s) es) (fun ms =>
   rbind (need_r (orow o pa)) (fun row => rbind (getitem s d) (fun pd => rbind (need_r (ccol c pd)) (fun col =>
     Ok (vdot (vm row (mprod (oflag o) ms)) col)))))).

Lemma chain_closed s o a es d c : barred s -> es <> [] -> bracket_ok o (length es) c = true ->
  c_chain s o a es d c = chain_formula s o a es d c.
Proof.
  intros B N H. unfold c_chain, chain_formula. rewrite H. cbn [negb].
  destruct (getitem s a) as [pa|e]; [|reflexivity]. cbn [rbind].
  destruct o; cbn [orow oflag]; rewrite middle_flag by assumption;
    (destruct (rmapM (entry_val false s) es) as [ms|e]; [|reflexivity]); cbn [rmap rbind];
    (destruct (need_r _) as [row|e]; [|reflexivity]); cbn [rbind];
    (destruct (getitem s d) as [pd|e]; [|reflexivity]); cbn [rbind]; destruct c; reflexivity.
Qed.
(* when it returns, in elementary terms *)
Lemma chain_inv s o a es d c z : barred s -> es <> [] -> c_chain s o a es d c = Ok z ->
  bracket_ok o (length es) c = true /\
  exists pa pd ms row col, getitem s a = Ok pa /\ getitem s d = Ok pd /\ rmapM (entry_val false s) es = Ok ms /\
    orow o pa = Some row /\ ccol c pd = Some col /\ z = vdot (vm row (mprod (oflag o) ms)) col.
Proof.
  intros B N H. assert (O : bracket_ok o (length es) c = true).
  { unfold c_chain in H. destruct (bracket_ok o (length es) c); [reflexivity|discriminate]. }
  split; [exact O|]. rewrite chain_closed in H by assumption. unfold chain_formula in H.
  apply rbind_ok in H as (pa & Ha & H). apply rbind_ok in H as (ms & Hm & H). apply rbind_ok in H as (row & Hr & H).
  apply rbind_ok in H as (pd & Hd & H). apply rbind_ok in H as (col & Hc & H). inversion H; subst.
  exists pa, pd, ms, row, col. destruct (orow o pa); [|discriminate]. destruct (ccol c pd); [|discriminate].
  cbn in Hr, Hc. repeat split; congruence.
Qed.
Lemma chain_make s o a es d c pa pd ms row col : barred s -> es <> [] -> bracket_ok o (length es) c = true ->
  getitem s a = Ok pa -> getitem s d = Ok pd -> rmapM (entry_val false s) es = Ok ms ->
  orow o pa = Some row -> ccol c pd = Some col ->
  c_chain s o a es d c = Ok (vdot (vm row (mprod (oflag o) ms)) col).
Proof.
  intros B N O Ha Hd Hm Hr Hc. rewrite chain_closed by assumption. unfold chain_formula.
  rewrite Ha, Hd, Hm. cbn. rewrite Hr, Hc. reflexivity.
Qed.

(* the same for brackets with possibly no entry *)
Lemma bracket_inv s o a es d c z : barred s -> kind_ok o (length es) c -> bracket s o a es d c = Ok z ->
  exists pa pd ms row col, getitem s a = Ok pa /\ getitem s d = Ok pd /\ rmapM (entry_val false s) es = Ok ms /\
    orow o pa = Some row /\ ccol c pd = Some col /\ z = vdot (vm row (mprod (oflag o) ms)) col.
Proof.
  intros B [P O] H. destruct es as [|e es].
  - destruct o, c; try discriminate; try congruence; cbn in H; unfold c_A2, c_S2 in H;
      apply rbind_ok in H as (pa & Ha & H); apply rbind_ok in H as (pd & Hd & H);
      apply rbind_ok in H as (row & Hr & H); apply rbind_ok in H as (col & Hc & H); inversion H; subst;
      exists pa, pd, [], row, col; cbn [orow ccol mprod rmapM]; rewrite vm_one;
      unfold need_r in *; repeat (match goal with X : match ?o with _ => _ end = Ok _ |- _ => destruct o; [|discriminate] end);
      repeat split; congruence.
  - apply (chain_inv s o a (e :: es) d c z B) in H; [|discriminate]. apply H.
Qed.
Lemma bracket_make s o a es d c pa pd ms row col : barred s -> kind_ok o (length es) c ->
  getitem s a = Ok pa -> getitem s d = Ok pd -> rmapM (entry_val false s) es = Ok ms ->
  orow o pa = Some row -> ccol c pd = Some col ->
  bracket s o a es d c = Ok (vdot (vm row (mprod (oflag o) ms)) col).
Proof.
  intros B [P O] Ha Hd Hm Hr Hc. destruct es as [|e es].
  - cbn in Hm. inversion Hm; subst. cbn [mprod]. rewrite vm_one.
    destruct o, c; try discriminate; try congruence; cbn [bracket orow ccol] in *; unfold c_A2, c_S2; rewrite Ha, Hd; cbn; rewrite Hr, Hc; reflexivity.
  - apply (chain_make s o a (e :: es) d c pa pd ms row col); auto. discriminate.
Qed.

(* ---- alternating products ---- *)
Definition flip_by (n : nat) (b : bool) : bool := if Nat.even n then b else negb b.
Lemma flip_by_S n b : flip_by (S n) b = flip_by n (negb b).
Proof. unfold flip_by. rewrite Nat.even_succ, <- Nat.negb_even. destruct (Nat.even n), b; reflexivity. Qed.
Lemma mprod_app b l1 l2 : mprod b (l1 ++ l2) = mmul (mprod b l1) (mprod (flip_by (length l1) b) l2).
Proof.
  revert b; induction l1 as [|m l1 IH]; intros b; cbn [app mprod length]; [rewrite mmul_1_l; reflexivity|].
  rewrite IH, flip_by_S, mmul_assoc. reflexivity.
Qed.
Lemma flagm_negb b m : adj (flagm b m) = flagm (negb b) m.
Proof. destruct b; cbn; [apply adj_adj|reflexivity]. Qed.
Lemma mprod_adj b ms : adj (mprod b ms) = mprod (flip_by (length ms) b) (rev ms).
Proof.
  revert b; induction ms as [|m ms IH]; intros b; cbn [mprod rev length]; [apply adj_one|].
  rewrite adj_mul, IH, mprod_app, flip_by_S, rev_length. f_equal. cbn [mprod]. rewrite mmul_1_r, flagm_negb.
  f_equal. unfold flip_by. destruct (Nat.even (length ms)), b; reflexivity.
Qed.
Lemma mprod_mT b ms : mT (mprod b ms) = mprod (flip_by (length ms) (negb b)) (rev (map mT ms)).
Proof.
  revert b; induction ms as [|m ms IH]; intros b; cbn [mprod rev map length].
  - apply m2_ext; reflexivity.
  - rewrite mT_mmul, IH, mprod_app, rev_length, map_length. cbn [mprod]. rewrite mmul_1_r. rewrite flip_by_S.
    f_equal.
    unfold flip_by. destruct (Nat.even (length ms)), b; cbn; rewrite ?adj_mT; reflexivity.
Qed.
Lemma sound_barred s : sound s -> barred s.
Proof. apply consistent_barred. Qed.
Lemma sound_get s k p : sound s -> getitem s k = Ok p -> consistent p.
Proof. intros S G. apply (proj1 (Forall_getitem _ _) S k p G). Qed.

(* ---- C19 ---- *)
Definition both_sp p : Prop := r_d p <> None /\ l_d p <> None.
Lemma A2_inv s a b z : c_A2 s a b = Ok z -> sound s -> exists pa pb ra rb, getitem s a = Ok pa /\ getitem s b = Ok pb /\
  r_d pa = Some ra /\ r_d pb = Some rb /\ z = vdot (raise_r ra) rb.
Proof.
  intros H S. apply rbind_ok in H as (pa & Ha & H). apply rbind_ok in H as (pb & Hb & H).
  apply rbind_ok in H as (u & Hu & H). apply rbind_ok in H as (d & Hd & H). inversion H; subst.
  pose proof (cons_r _ (sound_get s a pa S Ha)) as E. unfold need_r in *. rewrite E in Hu.
  destruct (r_d pa) as [ra|] eqn:Ea; [|discriminate]. cbn in Hu. destruct (r_d pb) as [rb|] eqn:Eb; [|discriminate].
  exists pa, pb, ra, rb. inversion Hu; inversion Hd; subst. auto.
Qed.
Lemma A2_make s a b pa pb ra rb : sound s -> getitem s a = Ok pa -> getitem s b = Ok pb ->
  r_d pa = Some ra -> r_d pb = Some rb -> c_A2 s a b = Ok (vdot (raise_r ra) rb).
Proof.
  intros S Ha Hb Ea Eb. apply (c_A2_eq s a b pa pb); auto. rewrite (cons_r _ (sound_get s a pa S Ha)), Ea. reflexivity.
Qed.
Lemma S2_inv s a b z : c_S2 s a b = Ok z -> sound s -> exists pa pb la lb, getitem s a = Ok pa /\ getitem s b = Ok pb /\
  l_d pa = Some la /\ l_d pb = Some lb /\ z = vdot la (raise_r lb).
Proof.
  intros H S. apply rbind_ok in H as (pa & Ha & H). apply rbind_ok in H as (pb & Hb & H).
  apply rbind_ok in H as (u & Hu & H). apply rbind_ok in H as (d & Hd & H). inversion H; subst.
  pose proof (cons_l _ (sound_get s b pb S Hb)) as E. unfold need_r in *. rewrite E in Hd.
  destruct (l_d pa) as [ra|] eqn:Ea; [|discriminate]. cbn in Hu. destruct (l_d pb) as [rb|] eqn:Eb; [|discriminate].
  exists pa, pb, ra, rb. inversion Hu; inversion Hd; subst. auto.
Qed.
Lemma S2_make s a b pa pb ra rb : sound s -> getitem s a = Ok pa -> getitem s b = Ok pb ->
  l_d pa = Some ra -> l_d pb = Some rb -> c_S2 s a b = Ok (vdot ra (raise_r rb)).
Proof.
  intros S Ha Hb Ea Eb. apply (c_S2_eq s a b pa pb); auto. rewrite (cons_l _ (sound_get s b pb S Hb)), Eb. reflexivity.
Qed.

Ltac det_get := repeat match goal with
  | H : getitem ?s ?a = Ok ?x, H' : getitem ?s ?a = Ok ?y |- _ =>
      assert (y = x) by congruence; subst y; clear H'
  | H : ?t = Some ?x, H' : ?t = Some ?y |- _ => assert (y = x) by congruence; subst y; clear H'
  end.

Lemma two_brackets s a b c d ab ac ad bc bd cd : sound s ->
  (forall f, (f = c_A2 (K:=K) \/ f = c_S2 (K:=K)) ->
  f s a b = Ok ab -> f s a c = Ok ac -> f s a d = Ok ad -> f s b c = Ok bc -> f s b d = Ok bd -> f s c d = Ok cd ->
  f s b a = Ok (- ab) /\ f s a a = Ok 0 /\ ab * cd + ad * bc = ac * bd).
Proof.
  intros S f [-> | ->] H1 H2 H3 H4 H5 H6.
  - apply A2_inv in H1 as (pa & pb & ra & rb & Ga & Gb & Ea & Eb & ->); [|exact S].
    apply A2_inv in H6 as (pc & pd & rc & rd & Gc & Gd & Ec & Ed & ->); [|exact S].
    rewrite (A2_make s a c pa pc ra rc) in H2; auto. rewrite (A2_make s a d pa pd ra rd) in H3; auto.
    rewrite (A2_make s b c pb pc rb rc) in H4; auto. rewrite (A2_make s b d pb pd rb rd) in H5; auto.
    rewrite (A2_make s b a pb pa rb ra), (A2_make s a a pa pa ra ra); auto.
    assert (ac = vdot (raise_r ra) rc) by congruence. assert (ad = vdot (raise_r ra) rd) by congruence.
    assert (bc = vdot (raise_r rb) rc) by congruence. assert (bd = vdot (raise_r rb) rd) by congruence. subst.
    unfold raise_r; unfold_vec. repeat split; try (f_equal; ring). ring.
  - apply S2_inv in H1 as (pa & pb & ra & rb & Ga & Gb & Ea & Eb & ->); [|exact S].
    apply S2_inv in H6 as (pc & pd & rc & rd & Gc & Gd & Ec & Ed & ->); [|exact S].
    rewrite (S2_make s a c pa pc ra rc) in H2; auto. rewrite (S2_make s a d pa pd ra rd) in H3; auto.
    rewrite (S2_make s b c pb pc rb rc) in H4; auto. rewrite (S2_make s b d pb pd rb rd) in H5; auto.
    rewrite (S2_make s b a pb pa rb ra), (S2_make s a a pa pa ra ra); auto.
    assert (ac = vdot ra (raise_r rc)) by congruence. assert (ad = vdot ra (raise_r rd)) by congruence.
    assert (bc = vdot rb (raise_r rc)) by congruence. assert (bd = vdot rb (raise_r rd)) by congruence. subst.
    unfold raise_r; unfold_vec. repeat split; try (f_equal; ring). ring.
Qed.

Lemma mom_sum_2 b s i j pi pj : getitem s i = Ok pi -> getitem s j = Ok pj ->
  mom_sum b s [i; j] = Ok (madd (if b then r2b pi else r2 pi) (if b then r2b pj else r2 pj)).
Proof.
  intros Hi Hj. unfold mom_sum. cbn [rmapM]. unfold mom. rewrite Hi, Hj. cbn. rewrite madd_0_r. reflexivity.
Qed.
Lemma s_two s a b : sound s -> massless_leg s a -> massless_leg s b ->
  exists pa pb x y, getitem s a = Ok pa /\ getitem s b = Ok pb /\
    c_A2 s a b = Ok x /\ c_S2 s b a = Ok y /\ c_S s [a; b] = Ok (x * y) /\ x * y = 2 * ldot pa pb.
Proof.
  intros S (pa & Ga & (ra & la & Hra & Hla & Eba & E2a & Hrau & Hlau)) (pb & Gb & (rb & lb & Hrb & Hlb & Ebb & E2b & Hrbu & Hlbu)).
  exists pa, pb, (vdot (raise_r ra) rb), (vdot lb (raise_r la)). split; [exact Ga|]. split; [exact Gb|].
  split; [apply (A2_make s a b pa pb); auto|]. split; [apply (S2_make s b a pb pa); auto|].
  unfold c_S. rewrite (mom_sum_2 false s a b pa pb Ga Gb). cbn [rbind]. rewrite det2_mdet, E2a, E2b. split.
  - f_equal. unfold raise_r; unfold_vec; ring.
  - unfold ldot. rewrite E2a, Ebb. unfold raise_r; unfold_vec. field. apply two_nz'.
Qed.

(* ---- C20: additivity ---- *)
Definition ezip (l : list (bool * Z)) s b : result (list (bool * m2 K)) :=
  rmapM (fun x => rmap (pair (fst x)) (mom b s (snd x))) l.
Definition signed_sum (acc : m2 K) (l : list (bool * m2 K)) : m2 K :=
  fold_left (fun (acc : m2 K) (x : bool * m2 K) => if fst x then madd acc (snd x) else msub acc (snd x)) l acc.
Lemma entry_rest_spec b s l acc : entry_rest b s acc l = rmap (signed_sum acc) (ezip l s b).
Proof.
  revert acc; induction l as [|[sg k] l IH]; intros acc; cbn; [reflexivity|].
  destruct (mom b s k) as [m|e]; [|reflexivity]. cbn. rewrite IH. unfold ezip.
  destruct (rmapM _ l) as [ms|e]; reflexivity.
Qed.
Lemma signed_sum_acc acc m l : signed_sum (madd acc m) l = madd acc (signed_sum m l).
Proof.
  revert m; induction l as [|[sg x] l IH]; intros m; cbn; [reflexivity|].
  unfold signed_sum in IH. destruct sg; cbn; [rewrite <- madd_assoc|]; rewrite <- IH; [reflexivity|].
  f_equal. unfold_vec. apply m2_ext; cbn; ring.
Qed.
Lemma entry_rest_app b s l1 l2 acc : entry_rest b s acc (l1 ++ l2) =
  rbind (entry_rest b s acc l1) (fun acc' => entry_rest b s acc' l2).
Proof.
  revert acc; induction l1 as [|[sg k] l1 IH]; intros acc; cbn; [reflexivity|].
  destruct (mom b s k); cbn; [apply IH|reflexivity].
Qed.
Lemma signed_sum_flip acc m l : signed_sum (msub acc m) (map (fun x => (negb (fst x), snd x)) l) = msub acc (signed_sum m l).
Proof.
  revert m; induction l as [|[sg x] l IH]; intros m; cbn; [reflexivity|].
  unfold signed_sum in IH. destruct sg; cbn; rewrite <- IH; f_equal; unfold_vec; apply m2_ext; cbn; ring.
Qed.
Lemma ezip_flip l s b : ezip (map (fun x => (negb (fst x), snd x)) l) s b =
  rmap (map (fun x => (negb (fst x), snd x))) (ezip l s b).
Proof.
  unfold ezip. induction l as [|[sg k] l IH]; cbn; [reflexivity|]. rewrite IH.
  destruct (mom b s k); cbn; [|reflexivity]. destruct (rmapM _ l); reflexivity.
Qed.
Lemma entry_plus b s e f m m' : entry_val b s e = Ok m -> entry_val b s f = Ok m' ->
  entry_val b s (eplus e f) = Ok (madd m m').
Proof.
  unfold entry_val, eplus. cbn [fst snd]. destruct (mom b s (fst e)) as [me|]; [|discriminate]. cbn.
  destruct (mom b s (fst f)) as [mf|] eqn:Ef; [|discriminate]. cbn.
  intros H H'. rewrite entry_rest_app, H. cbn [rbind entry_rest]. rewrite Ef. cbn [rbind].
  rewrite entry_rest_spec in *. destruct (ezip (snd f) s b) as [ms|]; [|discriminate]. cbn in *.
  rewrite signed_sum_acc. congruence.
Qed.
Lemma entry_minus b s e f m m' : entry_val b s e = Ok m -> entry_val b s f = Ok m' ->
  entry_val b s (eminus e f) = Ok (msub m m').
Proof.
  unfold entry_val, eminus. cbn [fst snd]. destruct (mom b s (fst e)) as [me|]; [|discriminate]. cbn.
  destruct (mom b s (fst f)) as [mf|] eqn:Ef; [|discriminate]. cbn.
  intros H H'. rewrite entry_rest_app, H. cbn [rbind entry_rest]. rewrite Ef. cbn [rbind].
  rewrite entry_rest_spec in *. rewrite ezip_flip. destruct (ezip (snd f) s b) as [ms|]; [|discriminate]. cbn in *.
  rewrite signed_sum_flip. congruence.
Qed.
Lemma flagm_add b m m' : flagm b (madd m m') = madd (flagm b m) (flagm b m').
Proof. destruct b; cbn; [apply adj_add|reflexivity]. Qed.
Lemma flagm_sub b m m' : flagm b (msub m m') = msub (flagm b m) (flagm b m').
Proof. destruct b; cbn; [apply adj_sub|reflexivity]. Qed.
Lemma mprod_add b l1 l2 m m' :
  mprod b (l1 ++ madd m m' :: l2) = madd (mprod b (l1 ++ m :: l2)) (mprod b (l1 ++ m' :: l2)).
Proof. rewrite !mprod_app. cbn. rewrite flagm_add, mmul_madd_l, mmul_madd_r. reflexivity. Qed.
Lemma mprod_sub b l1 l2 m m' :
  mprod b (l1 ++ msub m m' :: l2) = msub (mprod b (l1 ++ m :: l2)) (mprod b (l1 ++ m' :: l2)).
Proof. rewrite !mprod_app. cbn. rewrite flagm_sub, mmul_msub_l, mmul_msub_r. reflexivity. Qed.
Lemma rmapM_split {A B} (f : A -> result B) l1 x l2 r : rmapM f (l1 ++ x :: l2) = Ok r ->
  exists r1 y r2, rmapM f l1 = Ok r1 /\ f x = Ok y /\ rmapM f l2 = Ok r2 /\ r = r1 ++ y :: r2.
Proof.
  revert r; induction l1 as [|z l1 IH]; intros r; cbn.
  - destruct (f x); [|discriminate]. destruct (rmapM f l2); [|discriminate]. intros H; inversion H; subst. exists []; eauto 6.
  - destruct (f z) as [b|]; [|discriminate]. destruct (rmapM f (l1 ++ x :: l2)) as [ys|]; [|discriminate]. intros H; inversion H; subst.
    destruct (IH ys eq_refl) as (r1 & y & r2 & -> & Hx & H2 & ->). exists (b :: r1), y, r2. auto.
Qed.
Lemma rmapM_join {A B} (f : A -> result B) l1 x l2 r1 y r2 : rmapM f l1 = Ok r1 -> f x = Ok y -> rmapM f l2 = Ok r2 ->
  rmapM f (l1 ++ x :: l2) = Ok (r1 ++ y :: r2).
Proof.
  revert r1; induction l1 as [|z l1 IH]; intros r1; cbn.
  - intros H -> ->. inversion H; reflexivity.
  - destruct (f z); [|discriminate]. destruct (rmapM f l1) as [ys|]; [|discriminate]. intros H Hx H2; inversion H; subst.
    rewrite (IH ys eq_refl Hx H2). reflexivity.
Qed.
Lemma app_cons_nnil {A} (l1 l2 : list A) x : l1 ++ x :: l2 <> [].
Proof. destruct l1; discriminate. Qed.

Lemma chain_additive s o a es1 e f es2 d c x y : sound s ->
  c_chain s o a (es1 ++ e :: es2) d c = Ok x -> c_chain s o a (es1 ++ f :: es2) d c = Ok y ->
  c_chain s o a (es1 ++ eplus e f :: es2) d c = Ok (x + y) /\
  c_chain s o a (es1 ++ eminus e f :: es2) d c = Ok (x - y).
Proof.
  intros S H H'. pose proof (sound_barred s S) as B.
  apply chain_inv in H as (O & pa & pd & ms & row & col & Ga & Gd & Hm & Hr & Hc & ->); [|auto using app_cons_nnil..].
  apply chain_inv in H' as (_ & pa' & pd' & ms' & row' & col' & Ga' & Gd' & Hm' & Hr' & Hc' & ->); [|auto using app_cons_nnil..].
  det_get. apply rmapM_split in Hm as (m1 & me & m2' & H1 & He & H2 & ->).
  apply rmapM_split in Hm' as (m1' & mf & m2'' & H1' & Hf & H2' & ->).
  assert (m1' = m1) by congruence. assert (m2'' = m2') by congruence. subst.
  assert (O' : forall g, bracket_ok o (length (es1 ++ g :: es2)) c = true).
  { intros g. rewrite app_length in *. exact O. }
  rewrite (chain_make s o a (es1 ++ eplus e f :: es2) d c pa pd (m1 ++ madd me mf :: m2') row col);
    auto using app_cons_nnil, rmapM_join, entry_plus.
  rewrite (chain_make s o a (es1 ++ eminus e f :: es2) d c pa pd (m1 ++ msub me mf :: m2') row col);
    auto using app_cons_nnil, rmapM_join, entry_minus.
  rewrite mprod_add, mprod_sub. split; f_equal; unfold_vec; ring.
Qed.

(* ---- C20: factorisation on a massless leg ---- *)
Lemma kind_end o n c : kind_ok o n c <-> o <> OLt /\ c = end_of o n.
Proof.
  unfold kind_ok, end_of, bracket_ok. split; intros [H H']; (split; [exact H|]);
    destruct o; try congruence; destruct (Nat.even n), c; cbn in *; congruence.
Qed.
Lemma flip_by_even n b : flip_by n b = if Nat.even n then b else negb b.
Proof. reflexivity. Qed.
Lemma chain_factor s o a es1 k es2 d c z : sound s -> massless_leg s k -> o <> OLt ->
  bracket s o a (es1 ++ leg k :: es2) d c = Ok z ->
  exists x y, bracket s o a es1 k (end_of o (length es1)) = Ok x /\
    bracket s (swap_o (open_of (end_of o (length es1)))) k es2 d c = Ok y /\ z = x * y.
Proof.
  intros S (pk & Gk & (rk & lk & Hrk & Hlk & Ebk & E2k & Hrku & Hlku)) No H. pose proof (sound_barred s S) as B.
  assert (O : bracket_ok o (length (es1 ++ leg k :: es2)) c = true).
  { destruct es1; cbn [app bracket] in H; unfold c_chain in H;
      match type of H with (if negb ?t then _ else _) = _ => destruct t eqn:E; [|discriminate] end; exact E. }
  apply bracket_inv in H as (pa & pd & ms & row & col & Ga & Gd & Hm & Hr & Hc & ->); [|exact B|split; [exact No|exact O]].
  apply rmapM_split in Hm as (m1 & me & m2' & H1 & He & H2 & ->).
  assert (me = r2 pk). { unfold entry_val, leg, mom in He. cbn in He. rewrite Gk in He. cbn in He. congruence. } subst me.
  assert (Kc : kind_ok o (length es1) (end_of o (length es1))) by (apply kind_end; auto).
  assert (Kd : kind_ok (swap_o (open_of (end_of o (length es1)))) (length es2) c).
  { assert (Kc' : kind_ok o (length (es1 ++ leg k :: es2)) c) by (split; auto). apply kind_end in Kc' as [_ ->].
    apply kind_end. rewrite app_length. cbn [length]. rewrite Nat.add_succ_r. unfold end_of.
    rewrite Nat.even_succ, <- Nat.negb_even, Nat.even_add.
    destruct o; try congruence; destruct (Nat.even (length es1)), (Nat.even (length es2)); cbn; split; congruence. }
  pose proof (rmapM_length _ _ _ H1) as L1.
  rewrite mprod_app. cbn [mprod]. rewrite L1.
  assert (exists cc rr, ccol (end_of o (length es1)) pk = Some cc /\
    orow (swap_o (open_of (end_of o (length es1)))) pk = Some rr /\
    flagm (flip_by (length es1) (oflag o)) (r2 pk) = outer cc rr /\
    oflag (swap_o (open_of (end_of o (length es1)))) = negb (flip_by (length es1) (oflag o))) as (cc & rr & Hcc & Hrr & Em & Ef).
  { pose proof (proj1 (Forall_getitem _ _) B k pk Gk) as Eb. cbn in Eb.
    unfold end_of, flip_by. destruct o; try congruence; destruct (Nat.even (length es1)); cbn [close_of swap_c open_of swap_o ccol orow oflag negb flagm];
      rewrite ?Hrk, ?Hlk, ?Hrku, ?Hlku; do 2 eexists; (split; [reflexivity|]); (split; [reflexivity|]);
      rewrite <- ?Eb; auto. }
  exists (vdot (vm row (mprod (oflag o) m1)) cc), (vdot (vm rr (mprod (negb (flip_by (length es1) (oflag o))) m2')) col).
  split; [apply (bracket_make s o a es1 k _ pa pk m1 row cc); auto|].
  split; [rewrite <- Ef; apply (bracket_make s _ k es2 d c pk pd m2' rr col); auto|].
  rewrite Em, !vm_mmul. unfold_vec. ring.
Qed.

(* ---- C20: reversal ---- *)
Lemma rmapM_rev {A B} (f : A -> result B) l r : rmapM f l = Ok r -> rmapM f (rev l) = Ok (rev r).
Proof.
  revert r; induction l as [|x l IH]; intros r; cbn; [intros H; inversion H; reflexivity|].
  destruct (f x) as [b|] eqn:E; [|discriminate]. destruct (rmapM f l) as [ys|] eqn:E2; [|discriminate]. intros H; inversion H; subst. cbn.
  apply (rmapM_join f (rev l) x [] (rev ys) b []); auto.
Qed.
Lemma chain_reverse s o a es d c z : sound s -> o <> OLt -> c = end_of o (length es) ->
  bracket s o a es d c = Ok z ->
  bracket s (open_of c) d (rev es) a (close_of o) = Ok (rev_sign (length es) z).
Proof.
  intros S No Ec H. pose proof (sound_barred s S) as B.
  assert (Kk : kind_ok o (length es) c) by (apply kind_end; auto).
  apply bracket_inv in H as (pa & pd & ms & row & col & Ga & Gd & Hm & Hr & Hc & ->); [|exact B|exact Kk].
  pose proof (rmapM_length _ _ _ Hm) as L.
  pose proof (sound_get s a pa S Ga) as Ca. pose proof (sound_get s d pd S Gd) as Cd.
  assert (K' : kind_ok (open_of c) (length (rev es)) (close_of o)).
  { apply kind_end. rewrite rev_length. unfold end_of in *. destruct o; try congruence; destruct (Nat.even (length es)); subst c; cbn; split; congruence. }
  unfold rev_sign. subst c. unfold end_of in *.
  pose proof (cons_r _ Ca) as Xa. pose proof (cons_l _ Ca) as Ya. pose proof (cons_r _ Cd) as Xd. pose proof (cons_l _ Cd) as Yd.
  destruct o; try congruence; destruct (Nat.even (length es)) eqn:Ev; cbn [close_of swap_c open_of ccol orow oflag] in *.
  - rewrite Xa in Hr. destruct (r_d pa) as [ra|] eqn:Ea; [|discriminate]. cbn in Hr. injection Hr as <-.
    rewrite Hc in Xd. cbn in Xd.
    rewrite (bracket_make s OAng d (rev es) a CAng pd pa (rev ms) (raise_r col) ra); auto using rmapM_rev. f_equal.
    cbn [oflag]. rewrite adj_raise_same, mprod_adj, rev_involutive, rev_length, L. unfold flip_by. rewrite Ev. reflexivity.
  - rewrite Xa in Hr. destruct (r_d pa) as [ra|] eqn:Ea; [|discriminate]. cbn in Hr. injection Hr as <-.
    rewrite Yd in Hc. destruct (l_d pd) as [ld|] eqn:Ed; [|discriminate]. cbn in Hc. injection Hc as <-.
    rewrite (bracket_make s OSq d (rev es) a CAng pd pa (rev ms) ld ra); auto using rmapM_rev. f_equal.
    cbn [oflag]. rewrite adj_mixed, mprod_adj, L. unfold flip_by. rewrite Ev. reflexivity.
  - rewrite Yd in Hc. destruct (l_d pd) as [ld|] eqn:Ed; [|discriminate]. cbn in Hc. injection Hc as <-.
    rewrite Hr in Ya. cbn in Ya.
    rewrite (bracket_make s OSq d (rev es) a CSq pd pa (rev ms) ld (raise_r row)); auto using rmapM_rev. f_equal.
    cbn [oflag]. rewrite adj_lower_same, mprod_adj, rev_involutive, rev_length, L. unfold flip_by. rewrite Ev. reflexivity.
  - rewrite Hr in Ya. cbn in Ya. rewrite Hc in Xd. cbn in Xd.
    rewrite (bracket_make s OAng d (rev es) a CSq pd pa (rev ms) (raise_r col) (raise_r row)); auto using rmapM_rev. f_equal.
    cbn [oflag]. rewrite adj_mixed, mprod_adj, rev_involutive, rev_length, L. unfold flip_by. rewrite Ev. reflexivity.
Qed.

End Thm.
