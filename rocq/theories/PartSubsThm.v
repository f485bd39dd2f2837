(* Proofs about Particles.subs. *)
From Coq Require Import List ZArith Bool Lia Ring Field.
From Verif Require Import Base Fld PartSubs PartSubsSpec.
Import ListNotations.
Section Thm.
Context {K : Fld}.
Add Field Kfpsub : (fth K).
Open Scope fld_scope.
Notation int := (@mod_int K).
Notation val := (value int).
Lemma int_morph : ring_morph 0 1 fadd fmul fsub fopp (@eq K) 0%Z 1%Z Z.add Z.mul Z.sub Z.opp Zeq_bool int.
Proof. apply InitialRing.gen_phiZ_morph; [apply Eqsth|apply Eq_ext|]. exact (F_R (fth K)). Qed.
Lemma int_add a b : int (a + b) = int a + int b. Proof. apply (morph_add int_morph). Qed.
Lemma int_mul a b : int (a * b) = int a * int b. Proof. apply (morph_mul int_morph). Qed.
Lemma int_0 : int 0 = 0. Proof. apply (morph0 int_morph). Qed.
Lemma int_1 : int 1 = 1. Proof. apply (morph1 int_morph). Qed.
Lemma power_add (x : K) n k : power x (n + k) = power x n * power x k.
Proof. induction n as [|n IH]; cbn; [ring|rewrite IH; ring]. Qed.
Section Eval.
Variable a : Z -> K.
Lemma ins_val x n m : product a (mono_ins x n m) = power (a x) n * product a m.
Proof.
  induction m as [|[y k] m IH]; [reflexivity|]. cbn [mono_ins]. destruct (Z.eqb_spec x y) as [->|N]; [cbn; rewrite power_add; ring|]. destruct (x <? y)%Z; [reflexivity|]. cbn. fold (product a (mono_ins x n m)). fold (product a m). rewrite IH. ring.
Qed.
Lemma mul_val m m' : product a (mono_mul m m') = product a m * product a m'.
Proof.
  induction m as [|[x n] m IH]; [change (product a m' = 1 * product a m'); ring|]. change (mono_mul ((x, n) :: m) m') with (mono_ins x n (mono_mul m m')). rewrite ins_val, IH. change (product a ((x, n) :: m)) with (power (a x) n * product a m). ring.
Qed.
Lemma eqb_mono m : forall m', mono_eqb m m' = true -> m = m'.
Proof.
  induction m as [|[x n] m IH]; intros [|[y k] m'] E; try discriminate; [reflexivity|]. cbn in E. apply andb_true_iff in E as [E E3]. apply andb_true_iff in E as [E1 E2]. apply Z.eqb_eq in E1. apply Nat.eqb_eq in E2. apply IH in E3. congruence.
Qed.
Lemma val_cons c m p : val a ((c, m) :: p) = int c * product a m + val a p. Proof. reflexivity. Qed.
Lemma term_val c m p : val a (term_ins c m p) = int c * product a m + val a p.
Proof.
  induction p as [|[c' m'] p IH]; [reflexivity|]. cbn [term_ins]. destruct (mono_eqb m m') eqn:E; [apply eqb_mono in E as <-; rewrite !val_cons, int_add; ring|]. rewrite !val_cons, IH. ring.
Qed.
Lemma expand_val p : val a (expand p) = val a p.
Proof.
  unfold expand. transitivity (val a (fold_right (fun cm q => term_ins (fst cm) (snd cm) q) [] p)).
  - generalize (fold_right (fun cm q => term_ins (fst cm) (snd cm) q) [] p). intros q. induction q as [|[c m] q IH]; [reflexivity|]. cbn [filter fst]. destruct (Z.eqb_spec c 0) as [->|N]; cbn [negb]; rewrite ?val_cons, IH; [rewrite int_0; ring|reflexivity].
  - induction p as [|[c m] p IH]; [reflexivity|]. cbn [fold_right fst snd]. rewrite term_val, IH. reflexivity.
Qed.
Lemma val_app p q : val a (p ++ q) = val a p + val a q.
Proof. induction p as [|[c m] p IH]; cbn [app]; [change (val a q = 0 + val a q); ring|]. rewrite !val_cons, IH. ring. Qed.
Lemma xmul_val p q : val a (xmul p q) = val a p * val a q.
Proof.
  unfold xmul. rewrite expand_val. induction p as [|[c m] p IH]; [change (0 = 0 * val a q); ring|]. cbn [flat_map]. rewrite val_app, IH, val_cons. cbn [fst snd].
  replace (val a (map _ q)) with (int c * product a m * val a q); [ring|]. clear. induction q as [|[e n] q IH]; [change (int c * product a m * 0 = 0); ring|]. cbn [map fst snd]. rewrite !val_cons, <- IH, int_mul, mul_val. ring.
Qed.
Lemma single_val c : val a [(c, [])] = int c. Proof. change (int c * 1 + 0 = int c). ring. Qed.
Lemma one_val : val a [(1%Z, [])] = 1. Proof. rewrite single_val. apply int_1. Qed.
Lemma xpow_val p n : val a (xpow p n) = power (val a p) n.
Proof. induction n as [|n IH]; cbn [xpow power]; [apply one_val|rewrite xmul_val, IH; reflexivity]. Qed.
Lemma look_val d x : val a (look_up d x) = updated int a d x.
Proof. induction d as [|[y p] d IH]; cbn [look_up updated]; [change (int 1 * (a x * 1 * 1) + 0 = a x); rewrite int_1; ring|]. destruct (x =? y)%Z; [reflexivity|exact IH]. Qed.
Lemma xsubs_val d p : val a (xsubs d p) = val (updated int a d) p.
Proof.
  unfold xsubs. rewrite expand_val. induction p as [|[c m] p IH]; [reflexivity|]. cbn [flat_map fst snd]. rewrite val_app, IH, xmul_val. change (val (updated int a d) ((c, m) :: p)) with (int c * product (updated int a d) m + val (updated int a d) p). f_equal.
  replace (val a [(c, [])]) with (int c) by (symmetry; apply single_val). f_equal. clear. induction m as [|[x n] m IH]; [apply one_val|]. cbn [fold_right fst snd]. rewrite xmul_val, IH, xpow_val, look_val. reflexivity.
Qed.
Lemma residue_val md c : int md = 0 -> int (residue md c) = int c.
Proof.
  intros M. assert (R : int (c mod md) = int c).
  { destruct (Z.eq_dec md 0) as [->|N]; [rewrite Zmod_0_r; reflexivity|]. rewrite (Z.div_mod c md N) at 2. rewrite int_add, int_mul, M. ring. }
  unfold residue. cbv zeta. destruct (md / 2 <? c mod md)%Z; [|exact R]. rewrite <- R. transitivity (int (c mod md - md) + int md); [rewrite M; ring|]. rewrite <- int_add. f_equal. lia.
Qed.
Lemma modulo_val md p : int md = 0 -> val a (modulo md p) = val a p.
Proof.
  intros M. unfold modulo. rewrite expand_val. induction p as [|[c m] p IH]; [reflexivity|]. cbn [map fst snd]. rewrite !val_cons, IH. f_equal. f_equal.
  apply residue_val, M.
Qed.
Lemma integer_val p : class_of p = CInteger -> val a p = int (constant p).
Proof.
  destruct p as [|[c [|[x n] m]] [|? ?]]; cbn [class_of constant]; try discriminate; try (destruct m; [destruct (c =? 1)%Z; [destruct (n =? 1)%nat|]|]; discriminate).
  - intros _. symmetry. exact int_0.
  - intros _. apply single_val.
Qed.
End Eval.
Lemma pow_iff p : class_of p = CPow <-> exists x n, p = [(1%Z, [(x, n)])] /\ n <> 1%nat.
Proof.
  split.
  - destruct p as [|[c [|[x n] [|? ?]]] [|? ?]]; cbn [class_of]; try discriminate. destruct (Z.eqb_spec c 1) as [->|]; [|discriminate]. destruct (Nat.eqb_spec n 1); [discriminate|]. eauto.
  - intros (x & n & -> & N). cbn. destruct (Nat.eqb_spec n 1); [congruence|reflexivity].
Qed.
Theorem component_subs md d (e : component K) a : int md = 0 -> ~ bare_power e -> (forall p, e = CExpr p -> class_of p <> CInteger) ->
  component_value int a (subs_component md d e) = component_value int (updated int a d) e.
Proof.
  intros M N I. destruct e as [x|p]; [reflexivity|]. unfold subs_component. destruct (class_of p) eqn:C; try (exfalso; apply (I p eq_refl C)).
  2: { exfalso. apply N. apply pow_iff in C as (x & n & -> & D). exists x, n. auto. }
  all: cbn [component_value]; rewrite <- (xsubs_val a d p); destruct (class_of (xsubs d p)) eqn:C'; cbn [component_value]; try apply modulo_val, M; rewrite (integer_val a _ C'); reflexivity.
Qed.
Theorem component_integer md d p a : class_of p = CInteger -> component_value (K := K) int a (subs_component md d (CExpr p)) = component_value int (updated int a d) (CExpr p).
Proof. intros C. unfold subs_component. rewrite C. cbn [component_value]. rewrite !(integer_val _ _ C). reflexivity. Qed.
Theorem subs_value md d (e : component K) a : int md = 0 -> ~ bare_power e ->
  component_value int a (subs_component md d e) = component_value int (updated int a d) e.
Proof.
  intros M N. destruct e as [x|p]; [reflexivity|]. destruct (class_of p) eqn:C; try (apply (component_subs md d (CExpr p) a M N); intros q E; injection E as <-; congruence).
  apply component_integer, C.
Qed.
(* a power of one symbol is not changed *)
Theorem power_kept md d (e : component K) : bare_power e -> subs_component md d e = e.
Proof. intros (x & n & -> & N). unfold subs_component. rewrite (proj2 (pow_iff _)); [reflexivity|eauto]. Qed.
(* masses *)
Theorem mass_value md d (e : component K) a : int md = 0 -> ~ bare_power e ->
  exists e', subs_mass md d (MComp e) = MComp e' /\ component_value int (updated int a d) e = component_value int a e'.
Proof.
  intros M N. destruct e as [x|p]; [eexists; split; reflexivity|].
  assert (G : forall q, val a q = val (updated int a d) p -> exists e', match class_of q with CInteger => MComp (CNum (int (constant q))) | _ => MComp (CExpr (modulo md q)) end = MComp e' /\ val (updated int a d) p = component_value int a e').
  { intros q <-. destruct (class_of q) eqn:C; eexists; (split; [reflexivity|]); cbn [component_value]; try (symmetry; apply modulo_val, M). apply integer_val, C. }
  cbn [subs_mass component_value]. cbv zeta. destruct (class_of p) eqn:C; apply G; try apply xsubs_val; [rewrite !(integer_val _ _ C); reflexivity|]. exfalso. apply N. apply pow_iff in C as (x & n & -> & D). exists x, n. auto.
Qed.
Theorem point_legs md d (s : list ((component K * component K) * (component K * component K))) : length (subs_point md d s) = length s /\
  forall i r1 r2 l1 l2, nth_error s i = Some ((r1, r2), (l1, l2)) ->
    nth_error (subs_point md d s) i = Some ((subs_component md d r1, subs_component md d r2), (subs_component md d l1, subs_component md d l2)).
Proof. split; [apply map_length|]. intros i r1 r2 l1 l2 E. unfold subs_point. rewrite nth_error_map, E. reflexivity. Qed.
(* ---- nothing symbolic is left ---- *)
Definition const (p : mpoly) : Prop := forall c m, In (c, m) p -> m = [].
Lemma term_ins_const c p : const p -> (length p <= 1)%nat -> const (term_ins c [] p) /\ (length (term_ins c [] p) <= 1)%nat.
Proof.
  intros C L. destruct p as [|[c' m'] [|? ?]]; cbn in L; [|assert (m' = []) as -> by (apply (C c'); left; reflexivity)|lia]; cbn; (split; [|lia]); intros e m [E|[]]; injection E as _ <-; reflexivity.
Qed.
Lemma expand_const p : const p -> class_of (expand p) = CInteger /\ const (expand p).
Proof.
  intros C. assert (H : const (fold_right (fun cm q => term_ins (fst cm) (snd cm) q) [] p) /\ (length (fold_right (fun cm q => term_ins (fst cm) (snd cm) q) [] p) <= 1)%nat).
  { induction p as [|[c m] p IH]; [split; [intros ? ? []|cbn; lia]|]. destruct IH as [I1 I2]; [intros e n J; apply (C e); right; exact J|]. cbn [fold_right fst snd]. rewrite (C c m (or_introl eq_refl)). apply term_ins_const; assumption. }
  unfold expand. destruct H as [H L]. destruct (fold_right (fun (cm : Z * mono) (q : mpoly) => term_ins (fst cm) (snd cm) q) [] p) as [|[c m] [|? ?]]; [split; [reflexivity|intros ? ? []]| |cbn in L; lia].
  assert (m = []) as -> by (apply (H c); left; reflexivity). cbn [filter fst]. destruct (negb (c =? 0)%Z); (split; [reflexivity|]); intros e n I; [destruct I as [I|[]]; injection I as _ <-; reflexivity|destruct I].
Qed.
Lemma xmul_const p q : const p -> const q -> const (xmul p q).
Proof.
  intros P Q. apply expand_const. intros c m I. apply in_flat_map in I as ([c1 m1] & I1 & I). apply in_map_iff in I as ([c2 m2] & E & I2). injection E as _ <-. cbn [snd]. rewrite (P _ _ I1), (Q _ _ I2). reflexivity.
Qed.
Lemma one_const : const [(1%Z, [])]. Proof. intros c m [E|[]]. injection E as _ <-. reflexivity. Qed.
Lemma xpow_const p n : const p -> const (xpow p n).
Proof. intros P. induction n as [|n IH]; cbn; [apply one_const|apply xmul_const; assumption]. Qed.
Lemma xsubs_const d p : (forall c m x n, In (c, m) p -> In (x, n) m -> const (look_up d x)) -> class_of (xsubs d p) = CInteger.
Proof.
  intros H. apply expand_const. intros c m I. apply in_flat_map in I as ([c1 m1] & I1 & I). cbn [fst snd] in I.
  apply (fun A B => xmul_const _ _ A B c m I); [intros e n [E|[]]; injection E as _ <-; reflexivity|].
  assert (G : forall x n, In (x, n) m1 -> const (look_up d x)) by (intros; eapply H; eauto). clear -G. induction m1 as [|[x n] m IH]; [apply one_const|]. cbn [fold_right fst snd]. apply xmul_const; [apply xpow_const, (G x n); left; reflexivity|]. apply IH. intros y k J. apply (G y k). right. exact J.
Qed.
Lemma look_const d x : (exists y, In (x, y) d) -> (forall y p, In (y, p) d -> exists c, p = [(c, [])] ) -> const (look_up d x).
Proof.
  induction d as [|[y p] d IH]; intros [q I] H; [destruct I|]. cbn. destruct (Z.eqb_spec x y) as [->|N].
  - destruct (H y p (or_introl eq_refl)) as [c ->]. intros e m [E|[]]. injection E as _ <-. reflexivity.
  - apply IH; [destruct I as [I|I]; [congruence|eauto]|]. intros z r J. apply (H z r). right. exact J.
Qed.
Theorem all_numbers md d (e : component K) : int md = 0 -> ~ bare_power e -> (forall p, e = CExpr p -> exists c m x n, In (c, m) p /\ In (x, n) m) ->
  (forall y p, In (y, p) d -> exists c, p = [(c, [])]) -> (forall p c m x n, e = CExpr p -> In (c, m) p -> In (x, n) m -> exists v, In (x, v) d) ->
  subs_component md d e = CNum (component_value int (updated int (fun _ => 0) d) e).
Proof.
  intros M N S D A. rewrite <- (subs_value md d e (fun _ => 0) M N). destruct e as [x|p]; [reflexivity|]. unfold subs_component.
  assert (C : class_of (xsubs d p) = CInteger) by (apply xsubs_const; intros c m x n I J; apply look_const; [eapply A; eauto|exact D]).
  destruct (class_of p) eqn:Cp; try (rewrite C; reflexivity).
  - exfalso. destruct (S p eq_refl) as (c & m & x & n & I & J). destruct p as [|[c1 [|xn ms]] [|? ?]]; cbn in Cp; try discriminate.
    + destruct I.
    + destruct I as [I|[]]. injection I as _ <-. destruct J.
    + destruct xn as [y k]. destruct ms; [destruct (c1 =? 1)%Z; [destruct (k =? 1)%nat|]|]; discriminate.
    + destruct xn as [y k]. destruct ms; discriminate.
  - exfalso. apply N. apply pow_iff in Cp as (x & n & -> & Dn). exists x, n. auto.
Qed.
(* ---- the coefficients of the result are reduced ---- *)
Lemma mono_eqb_refl m : mono_eqb m m = true.
Proof. induction m as [|[x n] m IH]; [reflexivity|]. cbn. rewrite Z.eqb_refl, Nat.eqb_refl, IH. reflexivity. Qed.
Lemma term_fresh c m p : ~ In m (map snd p) -> term_ins c m p = p ++ [(c, m)].
Proof.
  induction p as [|[c' m'] p IH]; intros N; [reflexivity|]. cbn [term_ins]. destruct (mono_eqb m m') eqn:E; [apply eqb_mono in E as <-; exfalso; apply N; left; reflexivity|]. cbn [app]. rewrite IH; [reflexivity|]. intros I. apply N. right. exact I.
Qed.
Lemma term_old c m p : In m (map snd p) -> map snd (term_ins c m p) = map snd p.
Proof.
  induction p as [|[c' m'] p IH]; intros I; [destruct I|]. cbn [term_ins]. destruct (mono_eqb m m') eqn:E; [apply eqb_mono in E as <-; reflexivity|]. cbn [map snd]. rewrite IH; [reflexivity|]. destruct I as [<-|I]; [|exact I]. cbn [snd] in E. rewrite mono_eqb_refl in E. discriminate.
Qed.
Lemma mono_dec : forall m m' : mono, {m = m'} + {m <> m'}.
Proof. decide equality. decide equality; [apply Nat.eq_dec|apply Z.eq_dec]. Qed.
Lemma term_nodup c m p : NoDup (map snd p) -> NoDup (map snd (term_ins c m p)).
Proof.
  intros N. destruct (in_dec mono_dec m (map snd p)) as [I|I]; [rewrite term_old; assumption|]. rewrite (term_fresh c m p I), map_app. cbn [map snd]. apply (NoDup_Add (a := m) (l := map snd p)); [|split; assumption].
  rewrite <- (app_nil_r (map snd p)) at 1. apply Add_app.
Qed.
Lemma filter_nodup (f : Z * mono -> bool) p : NoDup (map snd p) -> NoDup (map snd (filter f p)).
Proof.
  induction p as [|x p IH]; intros N; [exact N|]. cbn in N |- *. inversion N as [|? ? N1 N2]; subst. destruct (f x); [|auto]. cbn. constructor; [|auto]. intros I. apply N1. apply in_map_iff in I as (y & E & I). apply filter_In in I as [I _]. apply in_map_iff. eauto.
Qed.
Lemma expand_nodup p : NoDup (map snd (expand p)).
Proof. apply filter_nodup. induction p as [|x p IH]; [constructor|]. cbn [fold_right]. apply term_nodup, IH. Qed.
Lemma expand_in p x : NoDup (map snd p) -> In x (expand p) -> In x p.
Proof.
  intros N I. apply filter_In in I as [I _]. revert x I.
  assert (H : forall x, In x (fold_right (fun cm q => term_ins (fst cm) (snd cm) q) [] p) <-> In x p); [|intros x; apply H].
  induction p as [|[c m] p IH]; intros x; [reflexivity|]. cbn in N. inversion N as [|? ? N1 N2]; subst. cbn [fold_right fst snd]. rewrite term_fresh.
  - rewrite in_app_iff, (IH N2). cbn. tauto.
  - intros I. apply N1. apply in_map_iff in I as (y & E & I). apply (IH N2) in I. apply in_map_iff. eauto.
Qed.
Lemma residue_small md c : (0 < md)%Z -> (- md <= 2 * residue md c <= md)%Z.
Proof.
  intros P. unfold residue. cbv zeta. pose proof (Z.mod_pos_bound c md P) as B. pose proof (Z.div_mod md 2 ltac:(lia)) as D. pose proof (Z.mod_pos_bound md 2 ltac:(lia)). destruct (Z.ltb_spec (md / 2) (c mod md)); lia.
Qed.
Theorem reduced md d (e : component K) q c m : (0 < md)%Z -> subs_component md d e = CExpr q -> e <> CExpr q -> In (c, m) q -> (- md <= 2 * c <= md)%Z.
Proof.
  intros P E N I. destruct e as [x|p]; [discriminate|]. unfold subs_component in E. cbv zeta in E.
  assert (G : q = modulo md (xsubs d p)) by (destruct (class_of p); try (exfalso; congruence); destruct (class_of (xsubs d p)); congruence).
  subst q. apply expand_in in I.
  - apply in_map_iff in I as ([c1 m1] & E1 & _). injection E1 as <- _. apply residue_small, P.
  - rewrite map_map. cbn [snd]. apply (expand_nodup (flat_map _ p)).
Qed.
(* ---- whole points ---- *)
Theorem point_value md d s a : int md = 0 -> no_powers s -> point_values int a (subs_point md d s) = point_values int (updated int a d) s.
Proof.
  intros M N. unfold point_values, subs_point. rewrite map_map. apply map_ext_in. intros [[r1 r2] [l1 l2]] I. cbn [fst snd]. destruct (N _ _ _ _ I) as (A & B & C & D). rewrite !subs_value by assumption. reflexivity.
Qed.
Theorem relation_kept md d s (P : list ((K * K) * (K * K)) -> Prop) : int md = 0 -> no_powers s -> (forall a, P (point_values int a s)) -> forall a, P (point_values int a (subs_point md d s)).
Proof. intros M N H a. rewrite point_value by assumption. apply H. Qed.
Theorem subs_twice md d1 d2 s a : int md = 0 -> no_powers s -> no_powers (subs_point md d1 s) ->
  point_values int a (subs_point md d2 (subs_point md d1 s)) = point_values int (updated int (updated int a d2) d1) s.
Proof. intros M N1 N2. rewrite point_value by assumption. apply point_value; assumption. Qed.
End Thm.
