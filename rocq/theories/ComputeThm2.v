(* Momentum conservation, bracket checks, traces and tr5: C21, C24, C25, C26. *)
From Coq Require Import List ZArith Bool Lia Ring Field Permutation.
From Verif Require Import Base Fld Particle ParticleSpec ParticleThm Index IndexThm Phase PhaseSpec PhaseThm Det Arcs Compute ComputeSpec ComputeThm.
Import ListNotations.

Section Thm.
Context {K : Fld}.
Open Scope fld_scope.
Add Field Kc2 : (fth K).
Implicit Types (s : ps K) (p q : particle K).

(* ---- C21 ---- *)
Lemma rmapM_map {A B C} (f : B -> result C) (g : A -> B) l : rmapM f (map g l) = rmapM (fun x => f (g x)) l.
Proof. induction l as [|x l IH]; cbn; [reflexivity|]. rewrite IH. reflexivity. Qed.
Lemma rmapM_ext {A B} (f g : A -> result B) l : (forall x, In x l -> f x = g x) -> rmapM f l = rmapM g l.
Proof.
  induction l as [|x l IH]; cbn; intros H; [reflexivity|]. rewrite (H x), IH by auto. reflexivity.
Qed.
Lemma rmapM_rmap {A B C} (f : A -> result B) (g : B -> C) l : rmapM (fun x => rmap g (f x)) l = rmap (map g) (rmapM f l).
Proof.
  induction l as [|x l IH]; cbn; [reflexivity|]. rewrite IH.
  destruct (f x); cbn; [|reflexivity]. destruct (rmapM f l); reflexivity.
Qed.
Lemma signed_sum_plus acc (ms : list (m2 K)) : signed_sum acc (map (pair true) ms) = madd acc (msum ms).
Proof.
  revert acc; induction ms as [|m ms IH]; intros acc; cbn; [symmetry; apply madd_0_r|].
  unfold signed_sum in IH. rewrite IH. symmetry. apply madd_assoc.
Qed.
Lemma entry_esum b s i l : entry_val b s (esum i l) = mom_sum b s (i :: l).
Proof.
  unfold entry_val, esum, mom_sum. cbn [fst snd rmapM]. destruct (mom b s i) as [m|]; [|reflexivity]. cbn [rbind].
  rewrite entry_rest_spec. unfold ezip. rewrite rmapM_map. cbn [fst snd].
  rewrite (rmapM_rmap (mom b s) (pair true)). destruct (rmapM (mom b s) l) as [ms|]; [|reflexivity]. cbn.
  rewrite signed_sum_plus. reflexivity.
Qed.
Lemma mom_all s : rmapM (mom false s) (upto (length s)) = Ok (map (fun p => r2 p) s).
Proof.
  unfold mom. rewrite (rmapM_rmap (getitem s) (fun p => r2 p)), getitem_all. reflexivity.
Qed.
Lemma mom_sum_compl s l m : l <> [] -> m <> [] -> Permutation (l ++ m) (upto (length s)) ->
  exists x y, mom_sum false s l = Ok x /\ mom_sum false s m = Ok y /\ madd x y = total_mom s.
Proof.
  intros Nl Nm P.
  destruct (rmapM_perm (mom false s) _ _ (Permutation_sym P) _ (mom_all s)) as (r & H & Pr).
  assert (exists a b, rmapM (mom false s) l = Ok a /\ rmapM (mom false s) m = Ok b /\ r = a ++ b) as (a & b & Ha & Hb & ->).
  { clear - H. revert r H; induction l as [|x l IH]; intros r H; cbn in *; [eauto|].
    destruct (mom false s x); [|discriminate]. destruct (rmapM (mom false s) (l ++ m)) as [r'|] eqn:E; [|discriminate].
    destruct (IH r' eq_refl) as (a' & b' & -> & -> & ->). inversion H; subst. cbn. eauto. }
  exists (msum a), (msum b). unfold mom_sum. rewrite Ha, Hb. destruct l; [congruence|]. destruct m; [congruence|].
  repeat split. rewrite <- msum_app. unfold total_mom. symmetry. apply msum_perm, Pr.
Qed.
Lemma madd_zero_opp (x y : m2 K) : madd x y = mzero -> y = mopp x.
Proof.
  assert (E : forall a b : K, a + b = 0 -> b = - a).
  { intros a b H. transitivity ((a + b) - a); [ring|rewrite H; ring]. }
  unfold madd, mzero. intros H. injection H as H0 H1 H2 H3. apply m2_ext; cbn; apply E; assumption.
Qed.
Lemma mom_sum_opp s l m : l <> [] -> m <> [] -> Permutation (l ++ m) (upto (length s)) -> total_mom s = mzero ->
  exists x, mom_sum false s l = Ok x /\ mom_sum false s m = Ok (mopp x).
Proof.
  intros Nl Nm P T. destruct (mom_sum_compl s l m Nl Nm P) as (x & y & Hx & Hy & E). rewrite T in E.
  exists x. split; [exact Hx|]. rewrite Hy, (madd_zero_opp x y E). reflexivity.
Qed.
Lemma s_complement s i l j m : Permutation ((i :: l) ++ j :: m) (upto (length s)) -> total_mom s = mzero ->
  exists x, c_S s (i :: l) = Ok x /\ c_S s (j :: m) = Ok x.
Proof.
  intros P T. destruct (mom_sum_opp s (i :: l) (j :: m)) as (x & Hx & Hy); try congruence.
  unfold c_S. rewrite Hx, Hy. cbn [rbind]. exists (det2 x). split; [reflexivity|]. f_equal. rewrite !det2_mdet.
  unfold_vec; ring.
Qed.
Lemma flagm_opp b (m : m2 K) : flagm b (mopp m) = mopp (flagm b m).
Proof. destruct b; cbn; [|reflexivity]. unfold adj; unfold_vec. apply m2_ext; cbn; ring. Qed.
Lemma mmul_opp_l (a b : m2 K) : mmul (mopp a) b = mopp (mmul a b).
Proof. unfold_vec. apply m2_ext; cbn; ring. Qed.
Lemma mmul_opp_r (a b : m2 K) : mmul a (mopp b) = mopp (mmul a b).
Proof. unfold_vec. apply m2_ext; cbn; ring. Qed.
Lemma mprod_opp b l1 l2 (m : m2 K) : mprod b (l1 ++ mopp m :: l2) = mopp (mprod b (l1 ++ m :: l2)).
Proof. rewrite !mprod_app. cbn. rewrite flagm_opp, mmul_opp_l, mmul_opp_r. reflexivity. Qed.

Lemma chain_complement s o a es1 i l j m es2 d c x : sound s -> total_mom s = mzero ->
  Permutation ((i :: l) ++ j :: m) (upto (length s)) ->
  c_chain s o a (es1 ++ esum i l :: es2) d c = Ok x ->
  c_chain s o a (es1 ++ esum j m :: es2) d c = Ok (- x).
Proof.
  intros S T P H. pose proof (sound_barred s S) as B.
  destruct (mom_sum_opp s (i :: l) (j :: m)) as (v & Hv & Hv'); try congruence.
  rewrite <- entry_esum in Hv, Hv'.
  apply chain_inv in H as (O & pa & pd & ms & row & col & Ga & Gd & Hm & Hr & Hc & ->); [|auto using app_cons_nnil..].
  apply rmapM_split in Hm as (m1 & me & m2' & H1 & He & H2 & ->).
  assert (me = v) by congruence. subst me.
  rewrite (chain_make s o a (es1 ++ esum j m :: es2) d c pa pd (m1 ++ mopp v :: m2') row col);
    auto using app_cons_nnil, rmapM_join.
  - f_equal. rewrite mprod_opp. unfold_vec; ring.
  - rewrite app_length in *. exact O.
Qed.

Lemma row_kills s o a pa row : sound s -> getitem s a = Ok pa -> reproduces pa -> orow o pa = Some row ->
  vm row (flagm (oflag o) (r2 pa)) = vzero.
Proof.
  intros S G (r & l & Hr & Hl & Eb & E2 & Hru & Hlu) Hrow.
  destruct o; cbn in *.
  - rewrite E2, outer_adj' in *. rewrite Hru in Hrow. injection Hrow as <-.
    unfold raise_r, adj; unfold_vec. apply v2_ext; cbn; ring.
  - rewrite E2. rewrite Hl in Hrow. injection Hrow as <-. unfold raise_r; unfold_vec. apply v2_ext; cbn; ring.
  - rewrite E2. rewrite Hl in Hrow. injection Hrow as <-. unfold raise_r; unfold_vec. apply v2_ext; cbn; ring.
Qed.
Lemma chain_first_leg s o a e es d c x : sound s -> massless_leg s a ->
  c_chain s o a (e :: es) d c = Ok x ->
  c_chain s o a (eplus e (leg a) :: es) d c = Ok x /\ c_chain s o a (eminus e (leg a) :: es) d c = Ok x.
Proof.
  intros S (pa & Ga & Ra) H. pose proof (sound_barred s S) as B.
  assert (H0 : c_chain s o a (leg a :: es) d c = Ok 0).
  { apply chain_inv in H as (O & pa' & pd & ms & row & col & Ga' & Gd & Hm & Hr & Hc & ->); [|auto; discriminate..].
    assert (pa' = pa) by congruence. subst pa'.
    change (e :: es) with ([] ++ e :: es) in Hm. apply rmapM_split in Hm as (m1 & me & m2' & H1 & He & H2 & ->).
    assert (El : entry_val false s (leg a) = Ok (r2 pa)). { unfold entry_val, leg, mom. cbn. rewrite Ga. reflexivity. }
    rewrite (chain_make s o a (leg a :: es) d c pa pd (r2 pa :: m2') row col); auto; try discriminate.
    - cbn [mprod]. rewrite vm_mmul, (row_kills s o a pa row S Ga Ra Hr). f_equal. unfold_vec; ring.
    - apply (rmapM_join _ [] (leg a) es [] (r2 pa) m2'); auto. }
  destruct (chain_additive s o a [] e (leg a) es d c x 0 S H H0) as [E1 E2]. cbn [app] in *.
  rewrite E1, E2. split; f_equal; ring.
Qed.
Lemma col_kills s c d pd col : sound s -> getitem s d = Ok pd -> reproduces pd -> ccol c pd = Some col ->
  mv (flagm (match c with CAng => false | _ => true end) (r2 pd)) col = vzero.
Proof.
  intros S G (r & l & Hr & Hl & Eb & E2 & Hru & Hlu) Hcol.
  destruct c; cbn in *.
  - rewrite E2. rewrite Hr in Hcol. injection Hcol as <-. unfold raise_r; unfold_vec. apply v2_ext; cbn; ring.
  - rewrite E2. rewrite Hlu in Hcol. injection Hcol as <-. unfold raise_r, adj; unfold_vec. apply v2_ext; cbn; ring.
  - rewrite E2. rewrite Hlu in Hcol. injection Hcol as <-. unfold raise_r, adj; unfold_vec. apply v2_ext; cbn; ring.
Qed.
Lemma chain_last_leg s o a es e d c x : sound s -> o <> OLt -> massless_leg s d ->
  c_chain s o a (es ++ [e]) d c = Ok x ->
  c_chain s o a (es ++ [eplus e (leg d)]) d c = Ok x /\ c_chain s o a (es ++ [eminus e (leg d)]) d c = Ok x.
Proof.
  intros S No (pd & Gd & Rd) H. pose proof (sound_barred s S) as B.
  assert (H0 : c_chain s o a (es ++ [leg d]) d c = Ok 0).
  { apply chain_inv in H as (O & pa & pd' & ms & row & col & Ga & Gd' & Hm & Hr & Hc & ->); [|auto using app_cons_nnil..].
    assert (pd' = pd) by congruence. subst pd'.
    apply rmapM_split in Hm as (m1 & me & m2' & H1 & He & H2 & ->).
    assert (El : entry_val false s (leg d) = Ok (r2 pd)). { unfold entry_val, leg, mom. cbn. rewrite Gd. reflexivity. }
    rewrite app_length in O. cbn [length] in O. rewrite Nat.add_1_r in O.
    rewrite (chain_make s o a (es ++ [leg d]) d c pa pd (m1 ++ r2 pd :: []) row col); auto using app_cons_nnil, rmapM_join.
    - rewrite mprod_app. cbn [mprod]. rewrite mmul_1_r, vdot_vm, mv_mmul.
      pose proof (rmapM_length _ _ _ H1) as L1. rewrite L1.
      replace (flip_by (length es) (oflag o)) with (match c with CAng => false | _ => true end).
      + rewrite (col_kills s c d pd col S Gd Rd Hc). f_equal. unfold_vec; ring.
      + unfold bracket_ok, flip_by in *. rewrite Nat.even_succ, <- Nat.negb_even in O.
        destruct o; try congruence; destruct (Nat.even (length es)), c; cbn in *; congruence.
    - rewrite app_length. cbn [length]. rewrite Nat.add_1_r. exact O. }
  destruct (chain_additive s o a es e (leg d) [] d c x 0 S H H0) as [E1 E2].
  rewrite E1, E2. split; f_equal; ring.
Qed.

Lemma fsum_lin (u v : v2 K) (ps' : list (particle K)) :
  fold_right (fun p acc => vdot (vm u (r2b p)) v + acc) 0 ps' = vdot (vm u (msum (map (fun p => r2b p) ps'))) v.
Proof.
  induction ps' as [|p ps' IH]; cbn [fold_right map msum]; [unfold_vec; ring|].
  rewrite IH. change (fold_right madd mzero (map (fun p => r2b p) ps')) with (msum (map (fun p => r2b p) ps')).
  unfold_vec; ring.
Qed.
Lemma msum_adj (l : list (m2 K)) : msum (map adj l) = adj (msum l).
Proof.
  induction l as [|m l IH]; cbn; [unfold adj; unfold_vec; apply m2_ext; cbn; ring|].
  unfold msum in IH. rewrite IH, adj_add. reflexivity.
Qed.
Lemma sum_j s a b : sound s -> total_mom s = mzero -> Forall (fun p => reproduces p) s ->
  (1 <= a <= Z.of_nat (length s))%Z -> (1 <= b <= Z.of_nat (length s))%Z ->
  exists xs, rmapM (prod_aj s a b) (upto (length s)) = Ok xs /\ fold_right fadd 0 xs = 0.
Proof.
  intros S T R Ha Hb.
  destruct (getitem_ok s a) as (pa & Ga & _); [exact Ha|]. destruct (getitem_ok s b) as (pb & Gb & _); [exact Hb|].
  pose proof (proj1 (Forall_getitem _ _) R) as RR.
  destruct (RR a pa Ga) as (ra & la & Hra & Hla & _ & _ & Hrua & Hlua).
  destruct (RR b pb Gb) as (rb & lb & Hrb & Hlb & _ & _ & Hrub & Hlub).
  assert (E : forall l pl, rmapM (getitem s) l = Ok pl -> rmapM (prod_aj s a b) l = Ok (map (fun p => vdot (vm (raise_r ra) (r2b p)) (raise_r lb)) pl)).
  { induction l as [|k l IH]; cbn; intros pl H; [inversion H; reflexivity|].
    destruct (getitem s k) as [p|] eqn:G; [|discriminate]. destruct (rmapM (getitem s) l) as [pl'|]; [|discriminate].
    inversion H; subst. rewrite (IH pl' eq_refl). destruct (RR k p G) as (r & l' & Hr & Hl & Eb & _ & _ & _).
    unfold prod_aj. rewrite (A2_make s a k pa p ra r), (S2_make s k b p pb l' lb); auto. cbn. f_equal. f_equal.
    rewrite Eb. unfold raise_r; unfold_vec; ring. }
  exists (map (fun p => vdot (vm (raise_r ra) (r2b p)) (raise_r lb)) s). split; [apply E, getitem_all|].
  assert (F : forall l : list (particle K), fold_right fadd 0 (map (fun p => vdot (vm (raise_r ra) (r2b p)) (raise_r lb)) l)
     = fold_right (fun p acc => vdot (vm (raise_r ra) (r2b p)) (raise_r lb) + acc) 0 l).
  { induction l as [|p l IH]; cbn; [reflexivity|]. rewrite IH. reflexivity. }
  rewrite F, fsum_lin.
  replace (map (fun p => r2b p) s) with (map adj (map (fun p => r2 p) s)).
  - rewrite msum_adj. unfold total_mom in T. rewrite T. unfold adj; unfold_vec; ring.
  - rewrite map_map. apply map_ext_in. intros p Hp. symmetry. apply cons_r2b. apply (proj1 (Forall_forall _ _) S p Hp).
Qed.

(* ---- C24 ---- *)
Lemma getitem_err {A} (l : list A) k e : getitem l k = Err e -> e = IndexError.
Proof.
  unfold getitem, rebase, list_get.
  destruct (k <? 1)%Z; cbn [rbind]; [congruence|].
  destruct ((0 <? k)%Z && (k <? zlen l + 1)%Z); cbn [rbind]; [destruct (nth_error l _); congruence|].
  destruct (zlen l <? k)%Z; cbn [rbind]; [congruence|]. destruct (nth_error l _); congruence.
Qed.
Lemma mom_err b s k e : mom b s k = Err e -> e = IndexError.
Proof. unfold mom. destruct (getitem s k) eqn:E; cbn; [discriminate|]. intros H; inversion H; subst. apply (getitem_err s k e E). Qed.
Lemma entry_rest_err b s l : forall acc e, entry_rest b s acc l = Err e -> e = IndexError.
Proof.
  induction l as [|[sg k] l IH]; cbn; [discriminate|]. intros acc e. destruct (mom b s k) eqn:E; cbn; [apply IH|].
  intros H; inversion H; subst. apply (mom_err b s k e E).
Qed.
Lemma entry_val_err b s x e : entry_val b s x = Err e -> e = IndexError.
Proof.
  unfold entry_val. destruct (mom b s (fst x)) eqn:E; cbn; [apply entry_rest_err|].
  intros H; inversion H; subst. apply (mom_err _ _ _ _ E).
Qed.
Lemma mid_rest_err s es : forall b acc e, mid_rest b s acc es = Err e -> e = IndexError.
Proof.
  induction es as [|x es IH]; cbn; [discriminate|]. intros b acc e. destruct (entry_val b s x) eqn:E; cbn; [apply IH|].
  intros H; inversion H; subst. apply (entry_val_err _ _ _ _ E).
Qed.
Lemma middle_err b s es e : es <> [] -> middle b s es = Err e -> e = IndexError.
Proof.
  destruct es as [|x es]; [congruence|]. intros _. cbn. destruct (entry_val b s x) eqn:E; cbn; [apply mid_rest_err|].
  intros H; inversion H; subst. apply (entry_val_err _ _ _ _ E).
Qed.
Lemma need_r_err {A} (o : option A) e : need_r o = Err e -> e = TypeError.
Proof. destruct o; cbn; congruence. Qed.
Lemma chain_bracket_error s o a es d c : es <> [] ->
  (c_chain s o a es d c = Err SyntaxError <-> bracket_ok o (length es) c = false).
Proof.
  intros N. unfold c_chain. destruct (bracket_ok o (length es) c); cbn [negb]; split; try congruence; try reflexivity.
  intros H. exfalso.
  destruct (getitem s a) as [pa|] eqn:Ga; [|apply getitem_err in Ga; cbn in H; congruence]. cbn [rbind] in H.
  assert (Row : forall r, (match o with
           | OAng => rbind (middle true s es) (fun m => rbind (need_r (r_u pa)) (fun v => Ok (vm v m)))
           | _ => rbind (middle false s es) (fun m => rbind (need_r (l_d pa)) (fun v => Ok (vm v m)))
           end) = Err r -> r <> SyntaxError).
  { intros r Hr. destruct o.
    - destruct (middle true s es) eqn:Em; [cbn in Hr|apply middle_err in Em; cbn in Hr; congruence].
      destruct (need_r (r_u pa)) eqn:En; [discriminate|apply need_r_err in En; cbn in Hr; congruence].
    - destruct (middle false s es) eqn:Em; [cbn in Hr|apply middle_err in Em; cbn in Hr; congruence].
      destruct (need_r (l_d pa)) eqn:En; [discriminate|apply need_r_err in En; cbn in Hr; congruence].
    - destruct (middle false s es) eqn:Em; [cbn in Hr|apply middle_err in Em; cbn in Hr; congruence].
      destruct (need_r (l_d pa)) eqn:En; [discriminate|apply need_r_err in En; cbn in Hr; congruence]. }
  match type of H with rbind ?t _ = _ => destruct t as [row|] eqn:Er end.
  2:{ cbn in H. apply (Row _ eq_refl). congruence. }
  cbn [rbind] in H. destruct (getitem s d) as [pd|] eqn:Gd; [|apply getitem_err in Gd; cbn in H; congruence].
  cbn [rbind] in H. destruct c.
  - destruct (need_r (r_d pd)) eqn:En; [discriminate|apply need_r_err in En; cbn in H; congruence].
  - destruct (need_r (l_u pd)) eqn:En; [discriminate|apply need_r_err in En; cbn in H; congruence].
  - destruct (need_r (l_u pd)) eqn:En; [discriminate|apply need_r_err in En; cbn in H; congruence].
Qed.
Lemma chain_syntax s o a es d c : es <> [] -> o <> OLt ->
  (c_chain s o a es d c = Err SyntaxError <-> c <> end_of o (length es)).
Proof.
  intros N No. rewrite chain_bracket_error by exact N. unfold bracket_ok, end_of.
  destruct o; try congruence; destruct (Nat.even (length es)), c; cbn; split; congruence.
Qed.

(* ---- C25, C26 ---- *)
Ltac t5 := unfold T5, adj; unfold_vec; ring.
Lemma T5_swap12 (P Q R S : m2 K) : T5 Q P R S = - T5 P Q R S. Proof. t5. Qed.
Lemma T5_swap23 (P Q R S : m2 K) : T5 P R Q S = - T5 P Q R S. Proof. t5. Qed.
Lemma T5_swap34 (P Q R S : m2 K) : T5 P Q S R = - T5 P Q R S. Proof. t5. Qed.
Lemma T5_add (P P' Q R S : m2 K) : T5 (madd P P') Q R S = T5 P Q R S + T5 P' Q R S. Proof. t5. Qed.
Lemma T5_sub (P P' Q R S : m2 K) : T5 (msub P P') Q R S = T5 P Q R S - T5 P' Q R S. Proof. t5. Qed.
Lemma T5_rot (P Q R S : m2 K) : T5 Q R S P = - T5 P Q R S. Proof. t5. Qed.
Lemma T5_rep (P Q R : m2 K) : T5 P P Q R = 0. Proof. t5. Qed.

Lemma chain_loop_sq s a pa b c d B C D : sound s -> getitem s a = Ok pa -> reproduces pa ->
  entry_val false s b = Ok B -> entry_val false s c = Ok C -> entry_val false s d = Ok D ->
  c_chain s OSq a [b; c; d] a CAng = Ok (mtr (mmul (mmul (mmul (adj (r2 pa)) B) (adj C)) D)) /\
  c_chain s OAng a [b; c; d] a CSq = Ok (mtr (mmul (mmul (mmul (r2 pa) (adj B)) C) (adj D))).
Proof.
  intros S Ga (r & l & Hr & Hl & Eb & E2 & Hru & Hlu) Hb Hc Hd. pose proof (sound_barred s S) as Ba.
  assert (Hm : rmapM (entry_val false s) [b; c; d] = Ok [B; C; D]) by (cbn; rewrite Hb, Hc, Hd; reflexivity).
  split.
  - rewrite (chain_make s OSq a [b; c; d] a CAng pa pa [B; C; D] l r); auto; try discriminate. f_equal.
    cbn [mprod oflag flagm negb]. rewrite E2. unfold raise_r, adj; unfold_vec; ring.
  - rewrite (chain_make s OAng a [b; c; d] a CSq pa pa [B; C; D] (raise_r r) (raise_r l)); auto; try discriminate. f_equal.
    cbn [mprod oflag flagm negb]. rewrite E2. unfold raise_r, adj; unfold_vec; ring.
Qed.
Lemma chain_tr5 s a pa b c d B C D : sound s -> getitem s a = Ok pa -> reproduces pa ->
  entry_val false s b = Ok B -> entry_val false s c = Ok C -> entry_val false s d = Ok D ->
  (rbind (c_chain s OSq a [b; c; d] a CAng) (fun x => rbind (c_chain s OAng a [b; c; d] a CSq) (fun y => Ok (x - y))))
   = Ok (T5 (r2 pa) B C D).
Proof.
  intros S Ga Ra Hb Hc Hd. destruct (chain_loop_sq s a pa b c d B C D S Ga Ra Hb Hc Hd) as [-> ->]. reflexivity.
Qed.

Lemma one_char_leg k : (1 <= k <= 9)%Z -> one_char (leg k) = true.
Proof. intros H. unfold one_char, leg. cbn. destruct (Z.leb_spec 0 k), (Z.leb_spec k 9); cbn; auto; lia. Qed.
Lemma one_char_inv e : one_char e = true -> e = leg (fst e).
Proof. destruct e as [k [|x l]]; cbn; [reflexivity|discriminate]. Qed.
Lemma leg_val s k pk : getitem s k = Ok pk -> entry_val false s (leg k) = Ok (r2 pk).
Proof. intros H. unfold entry_val, leg, mom. cbn. rewrite H. reflexivity. Qed.

Lemma tr5_value s a b c d A B C D : sound s ->
  entry_val false s a = Ok A -> entry_val false s b = Ok B -> entry_val false s c = Ok C -> entry_val false s d = Ok D ->
  match sgn_rot a b c d with
  | Some (k, sg) => massless_leg s k -> c_tr5 s a b c d = Ok (if sg then T5 A B C D else - T5 A B C D)
  | None => c_tr5 s a b c d = Err NotImplementedError
  end.
Proof.
  intros S Ha Hb Hc Hd. unfold sgn_rot, c_tr5. cbn [tr5_rotate].
  assert (L : forall e E pe, entry_val false s e = Ok E -> one_char e = true -> getitem s (fst e) = Ok pe -> E = r2 pe).
  { intros e E pe HE H1 G. rewrite (one_char_inv e H1), (leg_val s _ pe G) in HE. congruence. }
  destruct (one_char a) eqn:Oa; [|destruct (one_char b) eqn:Ob; [|destruct (one_char c) eqn:Oc; [|destruct (one_char d) eqn:Od]]];
    cbn [rbind]; try reflexivity; intros (p & G & R).
  - rewrite (L a A p Ha Oa G). apply (chain_tr5 s (fst a) p b c d B C D S G R Hb Hc Hd).
  - rewrite (L b B p Hb Ob G). rewrite (chain_tr5 s (fst b) p c d a C D A S G R Hc Hd Ha). f_equal. t5.
  - rewrite (L c C p Hc Oc G). rewrite (chain_tr5 s (fst c) p d a b D A B S G R Hd Ha Hb). f_equal. t5.
  - rewrite (L d D p Hd Od G). rewrite (chain_tr5 s (fst d) p a b c A B C S G R Ha Hb Hc). f_equal. t5.
Qed.

Lemma tr5_first_value s a pa b c d B C D : sound s -> (1 <= a <= 9)%Z -> getitem s a = Ok pa -> reproduces pa ->
  entry_val false s b = Ok B -> entry_val false s c = Ok C -> entry_val false s d = Ok D ->
  c_tr5 s (leg a) b c d = Ok (T5 (r2 pa) B C D).
Proof.
  intros S Ra G R Hb Hc Hd. pose proof (tr5_value s (leg a) b c d (r2 pa) B C D S (leg_val s a pa G) Hb Hc Hd) as H.
  unfold sgn_rot in H. rewrite (one_char_leg a Ra) in H. apply H. exists pa. split; assumption.
Qed.
Lemma tr5_first_leg s a b b' c d B B' C D : sound s -> tr5_leg s a ->
  entry_val false s b = Ok B -> entry_val false s b' = Ok B' -> entry_val false s c = Ok C -> entry_val false s d = Ok D ->
  exists x y, c_tr5 s (leg a) b c d = Ok x /\ c_tr5 s (leg a) b' c d = Ok y /\
    c_tr5 s (leg a) (eplus b b') c d = Ok (x + y) /\ c_tr5 s (leg a) (eminus b b') c d = Ok (x - y) /\
    c_tr5 s (leg a) c b d = Ok (- x) /\ c_tr5 s (leg a) d c b = Ok (- x) /\ c_tr5 s (leg a) b d c = Ok (- x) /\
    c_tr5 s (leg a) b b c = Ok 0 /\ c_tr5 s (leg a) b c b = Ok 0 /\ c_tr5 s (leg a) c b b = Ok 0.
Proof.
  intros S (Ra & pa & G & R) Hb Hb' Hc Hd. exists (T5 (r2 pa) B C D), (T5 (r2 pa) B' C D).
  pose proof (fun b c d B C D => tr5_first_value s a pa b c d B C D S Ra G R) as V.
  rewrite (V b c d B C D), (V b' c d B' C D), (V c b d C B D), (V d c b D C B), (V b d c B D C), (V b b c B B C), (V b c b B C B), (V c b b C B B) by assumption.
  rewrite (V (eplus b b') c d (madd B B') C D), (V (eminus b b') c d (msub B B') C D) by auto using entry_plus, entry_minus.
  repeat split; f_equal; t5.
Qed.
Lemma tr5_legs s a b c d : sound s -> tr5_leg s a -> tr5_leg s b -> tr5_leg s c -> tr5_leg s d ->
  let t x y z w := c_tr5 s (leg x) (leg y) (leg z) (leg w) in
  (exists x, t a b c d = Ok x /\ t b a c d = Ok (- x) /\ t c b a d = Ok (- x) /\ t d b c a = Ok (- x) /\
     t a c b d = Ok (- x) /\ t a d c b = Ok (- x) /\ t a b d c = Ok (- x)) /\
  t a a b c = Ok 0 /\ t a b a c = Ok 0 /\ t a b c a = Ok 0 /\ t b a a c = Ok 0 /\ t b a c a = Ok 0 /\ t b c a a = Ok 0.
Proof.
  intros S (Ha & pa & Ga & Ra) (Hb & pb & Gb & Rb) (Hc & pc & Gc & Rc) (Hd & pd & Gd & Rd) t.
  assert (V : forall x y z w px py pz pw, (1 <= x <= 9)%Z -> reproduces px -> getitem s x = Ok px -> getitem s y = Ok py -> getitem s z = Ok pz -> getitem s w = Ok pw ->
    t x y z w = Ok (T5 (r2 px) (r2 py) (r2 pz) (r2 pw))).
  { intros x y z w px py pz pw Hx Rx Gx Gy Gz Gw. unfold t. apply tr5_first_value; auto using leg_val. }
  split; [exists (T5 (r2 pa) (r2 pb) (r2 pc) (r2 pd))|].
  - rewrite (V a b c d pa pb pc pd), (V b a c d pb pa pc pd), (V c b a d pc pb pa pd), (V d b c a pd pb pc pa), (V a c b d pa pc pb pd),
      (V a d c b pa pd pc pb), (V a b d c pa pb pd pc) by assumption. repeat split; f_equal; t5.
  - rewrite (V a a b c pa pa pb pc), (V a b a c pa pb pa pc), (V a b c a pa pb pc pa), (V b a a c pb pa pa pc), (V b a c a pb pa pc pa),
      (V b c a a pb pc pa pa) by assumption. repeat split; f_equal; t5.
Qed.

(* traces *)
Lemma middle_mprod b s es ms : sound s -> es <> [] -> rmapM (entry_val false s) es = Ok ms -> middle b s es = Ok (mprod b ms).
Proof. intros S N H. rewrite (middle_flag b s es (sound_barred s S) N), H. reflexivity. Qed.
Lemma c_tr_value s es ms : sound s -> es <> [] -> rmapM (entry_val false s) es = Ok ms -> c_tr s es = Ok (mtr (mprod true ms)).
Proof. intros S N H. unfold c_tr. rewrite (middle_mprod true s es ms S N H). reflexivity. Qed.
Lemma c_tr_inv s es x : sound s -> c_tr s es = Ok x -> es <> [] /\ exists ms, rmapM (entry_val false s) es = Ok ms /\ x = mtr (mprod true ms).
Proof.
  intros S H. assert (N : es <> []) by (destruct es; [discriminate|discriminate]). split; [exact N|].
  unfold c_tr in H. rewrite (middle_flag true s es (sound_barred s S) N) in H.
  destruct (rmapM (entry_val false s) es) as [ms|]; [|discriminate]. cbn in H. exists ms. split; congruence.
Qed.
Lemma flip_even n b : Nat.even n = true -> flip_by n b = b.
Proof. intros H. unfold flip_by. rewrite H. reflexivity. Qed.
Lemma tr_rotate2 s e f es x : sound s -> Nat.even (length es) = true ->
  c_tr s (e :: f :: es) = Ok x -> c_tr s (es ++ [e; f]) = Ok x.
Proof.
  intros S Ev H. apply c_tr_inv in H as (_ & ms & Hm & ->); [|exact S].
  change (e :: f :: es) with ([e; f] ++ es) in Hm.
  cbn in Hm. destruct (entry_val false s e) as [A|] eqn:Ea; [|discriminate]. destruct (entry_val false s f) as [B|] eqn:Eb; [|discriminate].
  destruct (rmapM (entry_val false s) es) as [cs|] eqn:Ec; [|discriminate]. cbn in Hm. injection Hm as <-.
  rewrite (c_tr_value s (es ++ [e; f]) (cs ++ [A; B])); auto using app_cons_nnil.
  - f_equal. pose proof (rmapM_length _ _ _ Ec) as L. rewrite mprod_app, L, flip_even by exact Ev.
    rewrite mtr_comm. cbn [mprod flagm negb]. rewrite mmul_1_r, mmul_assoc. reflexivity.
  - apply rmapM_app; [exact Ec|]. cbn. rewrite Ea, Eb. reflexivity.
Qed.
Lemma tr_reverse s es x : sound s -> Nat.even (length es) = true -> c_tr s es = Ok x -> c_tr s (rev es) = Ok x.
Proof.
  intros S Ev H. apply c_tr_inv in H as (N & ms & Hm & ->); [|exact S].
  pose proof (rmapM_length _ _ _ Hm) as L.
  rewrite (c_tr_value s (rev es) (rev ms)); auto using rmapM_rev.
  - f_equal. rewrite <- mtr_adj, mprod_adj, rev_involutive, rev_length, L, flip_even by exact Ev. reflexivity.
  - intros H. apply N. rewrite <- (rev_involutive es), H. reflexivity.
Qed.
Lemma tr_two s a b : sound s -> (1 <= a <= Z.of_nat (length s))%Z -> (1 <= b <= Z.of_nat (length s))%Z ->
  exists pa pb, getitem s a = Ok pa /\ getitem s b = Ok pb /\ c_tr s [leg a; leg b] = Ok (2 * ldot pa pb).
Proof.
  intros S Ha Hb. destruct (getitem_ok s a) as (pa & Ga & _); [exact Ha|]. destruct (getitem_ok s b) as (pb & Gb & _); [exact Hb|].
  exists pa, pb. split; [exact Ga|]. split; [exact Gb|].
  rewrite (c_tr_value s [leg a; leg b] [r2 pa; r2 pb]); auto; try discriminate.
  - f_equal. unfold ldot. rewrite (cons_r2b _ (sound_get s b pb S Gb)). cbn [mprod flagm negb].
    unfold adj; unfold_vec. field. apply two_nz'.
  - cbn. rewrite (leg_val s a pa Ga), (leg_val s b pb Gb). reflexivity.
Qed.
Lemma tr_tr5 s a b c d x y : sound s -> tr5_leg s a -> c_tr s [leg a; b; c; d] = Ok x -> c_tr s [b; c; d; leg a] = Ok y ->
  c_tr5 s (leg a) b c d = Ok (x - y).
Proof.
  intros S (Ha & pa & Ga & Ra) Hx Hy.
  apply c_tr_inv in Hx as (_ & ms & Hm & ->); [|exact S]. apply c_tr_inv in Hy as (_ & ms' & Hm' & ->); [|exact S].
  cbn in Hm, Hm'. rewrite (leg_val s a pa Ga) in *.
  destruct (entry_val false s b) as [B|] eqn:Eb; [|discriminate]. destruct (entry_val false s c) as [C|] eqn:Ec; [|discriminate].
  destruct (entry_val false s d) as [D|] eqn:Ed; [|discriminate]. cbn in Hm, Hm'. injection Hm as <-. injection Hm' as <-.
  pose proof (tr5_value s (leg a) b c d (r2 pa) B C D S (leg_val s a pa Ga) Eb Ec Ed) as H.
  unfold sgn_rot in H. rewrite (one_char_leg a Ha) in H. cbn [leg fst] in H. fold (leg a) in H. rewrite H; [|exists pa; auto].
  f_equal. cbn [mprod flagm negb]. t5.
Qed.

End Thm.
