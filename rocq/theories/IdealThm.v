(* Proofs about images of polynomials. *)
From Coq Require Import Ascii String.
From Coq Require Import List ZArith Bool Lia Permutation Field.
From Verif Require Import Base Fld Particle ParticleSpec ParticleThm Index IndexThm Phase PhaseSpec PhaseThm Compute ComputeSpec ComputeThm ComputeThm4 Symm SymmSpec SymmThm Str MassesThm Gen GenThm GenThm2 Parse ParseText Ideal IdealSpec.
From Verif Require TwistorThm.
Import ListNotations.
Open Scope Z_scope.

(* ---- polynomials with other variables ---- *)
Fixpoint ren (f : Z -> Z -> poly) (e : poly) : poly :=
  match e with
  | Num n => Num n
  | Var c i => f c i
  | Par a => Par (ren f a)
  | Pow st a n => Pow st (ren f a) n
  | Neg a => Neg (ren f a)
  | Mul a b => Mul (ren f a) (ren f b)
  | Add a b => Add (ren f a) (ren f b)
  | Sub a b => Sub (ren f a) (ren f b)
  end.
Ltac inv H := inversion H; subst; clear H.
Fixpoint nonneg (e : poly) : Prop :=
  match e with
  | Num n => 0 <= n | Var _ i => 0 <= i | Par a | Neg a => nonneg a | Pow _ a n => nonneg a /\ 0 <= n
  | Mul a b | Add a b | Sub a b => nonneg a /\ nonneg b
  end.
Scheme atom_m := Minimality for atom Sort Prop with factor_m := Minimality for factor Sort Prop with term_m := Minimality for term Sort Prop with sum_m := Minimality for sum Sort Prop.
Lemma sum_nonneg e : sum e -> nonneg e.
Proof. apply (sum_m nonneg nonneg nonneg nonneg); cbn; auto. Qed.
Lemma ren_sum f : (forall c i, 0 <= i -> atom (f c i)) -> forall e, sum e -> sum (ren f e).
Proof.
  intros F. apply (sum_m (fun e => atom (ren f e)) (fun e => factor (ren f e)) (fun e => term (ren f e)) (fun e => sum (ren f e))); cbn [ren]; intros; auto;
    first [apply F; assumption | constructor; assumption].
Qed.
Lemma ren_ren f g e : ren f (ren g e) = ren (fun c i => ren f (g c i)) e.
Proof. induction e; cbn [ren]; congruence. Qed.
Lemma ren_ext P f g e : vars P e -> (forall c i, P c i -> f c i = g c i) -> ren f e = ren g e.
Proof. intros V H. induction e; cbn [ren vars] in *; try (f_equal; tauto); auto. Qed.
Lemma vars_ren (P Q : Z -> Z -> Prop) f e : vars P e -> (forall c i, P c i -> vars Q (f c i)) -> vars Q (ren f e).
Proof. intros V H. induction e; cbn [ren vars] in *; try tauto; auto. Qed.
Lemma vars_imp (P Q : Z -> Z -> Prop) e : vars P e -> (forall c i, P c i -> Q c i) -> vars Q e.
Proof. intros V H. induction e; cbn [vars] in *; try tauto; auto. Qed.
Section Vals.
Context {K : Fld}.
Lemma value_ren P (at1 at2 : pystr -> option K) f e : vars P e -> (forall c i, P c i -> value at2 (f c i) = at1 (c :: dec i)) -> value at2 (ren f e) = value at1 e.
Proof.
  intros V H. induction e; cbn [ren value vars] in *; try reflexivity; auto; try (rewrite IHe by tauto; reflexivity);
    try (rewrite IHe1, IHe2 by tauto; reflexivity).
Qed.
End Vals.

(* ---- covariant_poly_image on texts ---- *)
Lemma py_nth_ok {A} (l : list A) i x : 0 <= i -> nth_error l (Z.to_nat i) = Some x -> py_nth l i = Ok x.
Proof. intros I H. unfold py_nth. rewrite (proj2 (Z.ltb_ge i 0)) by lia. rewrite (proj2 (Z.ltb_ge i 0)) by lia. rewrite H. reflexivity. Qed.
Lemma last_step {A} (c : A) u p : last (c :: u) p = last u c.
Proof. destruct u as [|d u]; [reflexivity|]. revert d. induction u as [|x u IH]; intros d; [reflexivity|]. exact (IH x). Qed.
Section Cov.
Variables (n : nat) (perm : pstring).
Hypothesis N9 : (n <= 9)%nat.
Hypothesis P : is_perm n perm.
Lemma cov_app u : forall p v, cov_sub perm p (u ++ v) = rbind (cov_sub perm p u) (fun x => rmap (app x) (cov_sub perm (last u p) v)).
Proof.
  induction u as [|c u IH]; intros p v; cbn [app cov_sub].
  - cbn [rbind last]. destruct (cov_sub perm p v); reflexivity.
  - rewrite last_step. destruct (is_abcd p && is_digit c).
    + destruct (py_nth perm (c - 48 - 1)) as [d|]; [|reflexivity]. cbn [rbind]. rewrite IH. destruct (cov_sub perm c u) as [x|]; [|reflexivity]. cbn [rbind rmap]. destruct (cov_sub perm (last u c) v); reflexivity.
    + rewrite IH. destruct (cov_sub perm c u) as [x|]; [|reflexivity]. cbn [rbind rmap]. destruct (cov_sub perm (last u c) v); reflexivity.
Qed.
Lemma cov_quiet u : forall p, is_abcd p = false -> Forall (fun c => is_abcd c = false) u -> cov_sub perm p u = Ok u /\ is_abcd (last u p) = false.
Proof.
  induction u as [|c u IH]; intros p Hp F; [auto|]. inv F. cbn [cov_sub]. rewrite Hp. cbn [andb]. destruct (IH c H1 H2) as [-> E]. split; [reflexivity|].
  rewrite last_step. exact E.
Qed.
Lemma dec_quiet k : 0 <= k -> Forall (fun c => is_abcd c = false) (dec k).
Proof. intros H. eapply Forall_impl; [|exact (dec_numeric k H)]. intros c Hc. cbv beta in Hc. unfold is_digit, is_abcd in *. lia. Qed.
Lemma last_app' {A} (u v : list A) p : last (u ++ v) p = last v (last u p).
Proof. revert p. induction u as [|c u IH]; intros p; [reflexivity|]. cbn [app]. rewrite !last_step. apply IH. Qed.
Lemma cov_step u v x y p : cov_sub perm p u = Ok x /\ is_abcd (last u p) = false -> cov_sub perm (last u p) v = Ok y /\ is_abcd (last v (last u p)) = false ->
  cov_sub perm p (u ++ v) = Ok (x ++ y) /\ is_abcd (last (u ++ v) p) = false.
Proof. intros [E1 L1] [E2 L2]. rewrite cov_app, E1. cbn [rbind]. rewrite E2, last_app'. auto. Qed.
Definition pvar (c i : Z) : poly := Var c (papp perm i).
Lemma cov_text e : vars (covariant_var (Z.of_nat n)) e -> nonneg e -> forall p, is_abcd p = false -> cov_sub perm p (text e) = Ok (text (ren pvar e)) /\ is_abcd (last (text e) p) = false.
Proof.
  induction e as [k|c i|a IH|st a IH k|a IH|a IHa b IHb|a IHa b IHb|a IHa b IHb]; cbn [vars nonneg text ren]; intros V W p Hp.
  - apply cov_quiet, dec_quiet; assumption.
  - destruct V as [Hc Hi]. assert (Q := is_perm_length _ _ P). assert (R := papp_range n perm i P Hi). unfold pvar. cbn [text]. rewrite !dec_digit by lia. cbn [cov_sub]. rewrite Hp. cbn [andb].
    assert (C : is_abcd c = true) by (unfold is_abcd; lia). assert (D : is_digit (48 + i) = true) by (unfold is_digit; lia). rewrite C, D. cbn [andb]. rewrite (py_nth_ok perm _ (papp perm i)); [|lia|].
    + cbn [rbind rmap last]. split; [reflexivity|]. unfold is_abcd. lia.
    + replace (48 + i - 48 - 1) with (i - 1) by lia. apply papp_in. lia.
  - apply (cov_step [40] (text a ++ [41]) [40] (text (ren pvar a) ++ [41])); [apply cov_quiet; [assumption|repeat constructor]|]. cbn [last]. apply cov_step; [apply IH; auto|]. apply cov_quiet; [apply IH; auto|repeat constructor].
  - apply cov_step; [apply IH; tauto|]. apply cov_quiet; [apply IH; tauto|]. apply Forall_app. split; [destruct st; repeat constructor|apply dec_quiet; tauto].
  - apply (cov_step [45] _ [45] _); [apply cov_quiet; [assumption|repeat constructor]|]. apply IH; auto.
  - apply cov_step; [apply IHa; tauto|]. apply (cov_step [42] _ [42] _); [apply cov_quiet; [apply IHa; tauto|repeat constructor]|]. apply IHb; tauto.
  - apply cov_step; [apply IHa; tauto|]. apply (cov_step [43] _ [43] _); [apply cov_quiet; [apply IHa; tauto|repeat constructor]|]. apply IHb; tauto.
  - apply cov_step; [apply IHa; tauto|]. apply (cov_step [45] _ [45] _); [apply cov_quiet; [apply IHa; tauto|repeat constructor]|]. apply IHb; tauto.
Qed.
End Cov.
Lemma map_text (g : Z -> Z) e : vars (fun c i => 0 <= i) e -> nonneg e -> (forall c, 40 <= c <= 57 -> g c = c) -> g 94 = 94 -> map g (text e) = text (ren (fun c i => Var (g c) i) e).
Proof.
  intros V W G G'. assert (D : forall k, 0 <= k -> map g (dec k) = dec k).
  { intros k Hk. assert (F := dec_numeric k Hk). induction F as [|c l Hc _ IH]; [reflexivity|]. cbn [map]. rewrite IH, G; [reflexivity|]. unfold is_digit in Hc. lia. }
  induction e as [k|c i|a IH|st a IH k|a IH|a IHa b IHb|a IHa b IHb|a IHa b IHb]; cbn [vars nonneg text ren] in *; repeat (rewrite ?map_app; cbn [map]).
  - auto.
  - rewrite D by assumption. reflexivity.
  - rewrite IH, !G by (auto; lia). reflexivity.
  - rewrite IH, D by tauto. destruct st; cbn [map]; rewrite ?G', ?G by lia; reflexivity.
  - rewrite IH, G by (auto; lia). reflexivity.
  - rewrite IHa, IHb, G by (tauto || lia). reflexivity.
  - rewrite IHa, IHb, G by (tauto || lia). reflexivity.
  - rewrite IHa, IHb, G by (tauto || lia). reflexivity.
Qed.
Definition swap_abcd (c : Z) : Z := if c =? 97 then 99 else if c =? 98 then 100 else if c =? 99 then 97 else if c =? 100 then 98 else c.
Definition swap_AB (c : Z) : Z := if c =? 65 then 66 else if c =? 66 then 65 else c.
Lemma cov_swap_map t : cov_swap t = map (fun c => let r x y c := if c =? x then y else c in r 66 100 (r 65 99 (r 100 98 (r 99 97 (r 98 66 (r 97 65 c)))))) t.
Proof. unfold cov_swap, repl. rewrite !map_map. reflexivity. Qed.
Lemma inv_swap_map t : inv_swap t = map (fun c => let r x y c := if c =? x then y else c in r 67 66 (r 66 65 (r 65 67 c))) t.
Proof. unfold inv_swap, repl. rewrite !map_map. reflexivity. Qed.
Lemma cov_swap_text e n : vars (covariant_var n) e -> nonneg e -> cov_swap (text e) = text (ren (fun c i => Var (swap_abcd c) i) e).
Proof.
  intros V W. rewrite cov_swap_map, map_text; [|eapply vars_imp; [exact V|]; intros c i [_ H]; lia|exact W| |reflexivity].
  - f_equal. apply (ren_ext (covariant_var n)); [exact V|]. intros c i [Hc _]. f_equal. unfold swap_abcd. assert (c = 97 \/ c = 98 \/ c = 99 \/ c = 100) as [-> | [-> | [-> | ->]]] by lia; reflexivity.
  - intros c Hc. cbv beta zeta. rewrite (proj2 (Z.eqb_neq c 97)), (proj2 (Z.eqb_neq c 98)), (proj2 (Z.eqb_neq c 99)), (proj2 (Z.eqb_neq c 100)), (proj2 (Z.eqb_neq c 65)), (proj2 (Z.eqb_neq c 66)) by lia. reflexivity.
Qed.
Lemma inv_swap_text e : vars (fun c i => (c = 65 \/ c = 66) /\ 0 <= i) e -> nonneg e -> inv_swap (text e) = text (ren (fun c i => Var (swap_AB c) i) e).
Proof.
  intros V W. rewrite inv_swap_map, map_text; [|eapply vars_imp; [exact V|]; intros c i [_ H]; lia|exact W| |reflexivity].
  - f_equal. apply (ren_ext _ _ _ _ V). intros c i [[-> | ->] _]; reflexivity.
  - intros c Hc. cbv beta zeta. rewrite (proj2 (Z.eqb_neq c 65)), (proj2 (Z.eqb_neq c 66)), (proj2 (Z.eqb_neq c 67)) by lia. reflexivity.
Qed.
Definition cov_var (perm : pstring) (conj : bool) (c i : Z) : poly := Var (if conj then swap_abcd c else c) (papp perm i).
Lemma cov_image_text n perm conj e : (n <= 9)%nat -> is_perm n perm -> vars (covariant_var (Z.of_nat n)) e -> nonneg e ->
  covariant_poly_image (text e) (perm, conj) = Ok (text (ren (cov_var perm conj) e)).
Proof.
  intros N P V W. unfold covariant_poly_image. cbn [fst snd]. destruct (cov_text n perm N P e V W 0 eq_refl) as [-> _]. cbn [rmap]. f_equal. destruct conj; [|reflexivity].
  assert (V' : vars (covariant_var (Z.of_nat n)) (ren (pvar perm) e)) by (apply (vars_ren _ _ _ _ V); intros c i [Hc Hi]; split; [exact Hc|apply (papp_range n perm i P Hi)]).
  rewrite (cov_swap_text _ (Z.of_nat n) V').
  - rewrite ren_ren. reflexivity.
  - clear - V W P. induction e; cbn [ren vars nonneg] in *; try tauto; auto. cbn. destruct V as [_ Hi]. apply (papp_range n perm i P) in Hi. lia.
Qed.
(* ---- dictionaries ---- *)
Lemma update_get {A} (l : dict A) : forall d k v, NoDup (map fst l) -> In (k, v) l -> dict_get k (dict_update d l) = Some v.
Proof.
  assert (Keep : forall (l : dict A) d k v, ~ In k (map fst l) -> dict_get k d = Some v -> dict_get k (dict_update d l) = Some v).
  { clear. intros l. induction l as [|[a x] l IH]; intros d k v N G; [exact G|]. cbn [map In] in N. apply IH; [tauto|]. cbn [fst snd]. rewrite dict_get_set. destruct (str_eqb_spec k a) as [->|]; [exfalso; apply N; left; reflexivity|exact G]. }
  induction l as [|[a x] l IH]; intros d k v N I; [destruct I|]. cbn [map] in N. inv N. change (dict_update d ((a, x) :: l)) with (dict_update (dict_set a x d) l). destruct I as [E|I].
  - injection E as -> ->. apply Keep; [assumption|]. rewrite dict_get_set. destruct (str_eqb_spec k k); [reflexivity|contradiction].
  - apply IH; assumption.
Qed.
Lemma enum_nth {A} (s : list A) k p : nth_error s k = Some p -> nth_error (combine (zrange 1 (Z.of_nat (length s) + 1)) s) k = Some (Z.of_nat k + 1, p).
Proof.
  intros H. assert (L := proj1 (nth_error_Some s k) ltac:(congruence)). apply combine_nth_error; [|exact H]. unfold zrange. rewrite nth_error_map, TwistorThm.nth_error_seq by lia. cbn [option_map]. f_equal. lia.
Qed.
Lemma enum_In {A} (s : list A) i p : In (i, p) (combine (zrange 1 (Z.of_nat (length s) + 1)) s) -> 1 <= i <= Z.of_nat (length s) /\ nth_error s (Z.to_nat (i - 1)) = Some p.
Proof.
  intros H. assert (I := in_combine_l _ _ _ _ H). apply zrange_In in I. split; [lia|]. apply In_nth_error in H. destruct H as (k & H). apply combine_nth_inv in H. cbn [fst snd] in H. destruct H as [H1 H2].
  assert (L := proj1 (nth_error_Some s k) ltac:(congruence)). unfold zrange in H1. rewrite nth_error_map, TwistorThm.nth_error_seq in H1 by lia. cbn [option_map plus] in H1. assert (Ek : 1 + Z.of_nat k = i) by congruence. replace (Z.to_nat (i - 1)) with k by lia. exact H2.
Qed.
Lemma enum_fst {A} (s : list A) : map fst (combine (zrange 1 (Z.of_nat (length s) + 1)) s) = zrange 1 (Z.of_nat (length s) + 1).
Proof. apply combine_fst. assert (H := zrange_len 1 (Z.of_nat (length s) + 1) ltac:(lia)). lia. Qed.
Section Points.
Context {K : Fld}.
Add Field Kid1 : (fth K).
Implicit Types (s : ps K).
(* the components of a leg *)
Definition component (c : Z) (p : particle K) : option K :=
  match r_d p, l_d p with Some r, Some l => Some (if c =? 97 then e0 r else if c =? 98 then e1 r else if c =? 99 then e0 l else e1 l) | _, _ => None end.
Lemma subs_get s d i p : analytical_subs_d s = Ok d -> getitem s i = Ok p -> (exists r l, r_d p = Some r /\ l_d p = Some l) /\ forall c, 97 <= c <= 100 -> dict_get (c :: dec i) d = component c p.
Proof.
  intros D G. rewrite getitem_nth in G. destruct ((1 <=? i) && (i <=? zlen s)) eqn:R; [|discriminate G]. unfold zlen in R. destruct (nth_error s (Z.to_nat (i - 1))) as [q|] eqn:Eq; [|discriminate G]. injection G as ->.
  unfold analytical_subs_d in D. destruct (rmapM _ _) as [ls|] eqn:Els; [|discriminate D]. cbn [rmap] in D. injection D as <-.
  assert (X := enum_nth s _ _ Eq). destruct (TwistorThm.rmapM_nth _ _ _ Els _ _ X) as (items & Ni & Ei). cbn [fst snd] in Ei. replace (Z.of_nat (Z.to_nat (i - 1)) + 1) with i in Ei by lia.
  unfold cov_items in Ei. unfold component. destruct (r_d p) as [r|]; [|discriminate Ei]. destruct (l_d p) as [l|]; [|discriminate Ei]. injection Ei as <-. split; [eauto|].
  intros c Hc. apply update_get.
  - (* names *)
    assert (ND : NoDup (map fst (concat ls))).
    { clear - Els. assert (Nz := enum_fst s). assert (Nd := zrange_NoDup 1 (Z.of_nat (length s) + 1)). rewrite <- Nz in Nd. assert (Rg : forall i p, In (i, p) (combine (zrange 1 (Z.of_nat (length s) + 1)) s) -> 1 <= i) by (intros i p H; apply enum_In in H; lia). clear Nz.
      remember (combine (zrange 1 (Z.of_nat (length s) + 1)) s) as es eqn:E. clear E. revert ls Els. induction es as [|[i p] es IH]; intros ls H; [injection H as <-; constructor|].
      cbn [rmapM fst snd] in H. destruct (cov_items i p) as [it|] eqn:Ei; [|discriminate H]. cbn [rbind] in H. destruct (rmapM _ es) as [ls'|] eqn:El; [|discriminate H]. cbn [rbind] in H. injection H as <-. cbn [map fst] in Nd. inv Nd. cbn [concat]. rewrite map_app.
      assert (Ri : 1 <= i) by (apply (Rg i p); left; reflexivity).
      assert (Kit : map fst it = [97 :: dec i; 98 :: dec i; 99 :: dec i; 100 :: dec i]). { unfold cov_items in Ei. destruct (r_d p), (l_d p); try discriminate Ei. injection Ei as <-. reflexivity. }
      apply NoDup_app''.
      + rewrite Kit. repeat constructor; cbn; intros X; repeat (destruct X as [X|X]; [discriminate X|]); exact X.
      + apply IH; [assumption| |reflexivity]. intros i' p' I'. apply (Rg i' p'). right. exact I'.
      + intros k I1 I2. rewrite Kit in I1. apply in_map_iff in I2. destruct I2 as ([k' v'] & <- & I2). cbn [fst] in *. apply in_concat in I2. destruct I2 as (it' & It' & I2).
        destruct (rmapM_In _ _ _ _ El It') as ([i' p'] & He & Ey). cbn [fst snd] in Ey.
        assert (Ni : i' <> i). { intros ->. apply H1. apply in_map_iff. exists (i, p'). split; [reflexivity|exact He]. }
        assert (Ri' : 1 <= i') by (apply (Rg i' p'); right; exact He).
        unfold cov_items in Ey. destruct (r_d p'), (l_d p'); try discriminate Ey. injection Ey as <-. cbn [In] in I1, I2.
        assert (J : exists c c', k' = c :: dec i /\ k' = c' :: dec i').
        { destruct I2 as [E|[E|[E|[E|[]]]]]; injection E as <- _; destruct I1 as [E1|[E1|[E1|[E1|[]]]]]; rewrite <- E1; eexists; eexists; split; try reflexivity; rewrite E1; reflexivity. }
        destruct J as (c & c' & J1 & J2). rewrite J1 in J2. injection J2 as _ J2. apply Ni. symmetry. apply dec_inj; [lia|lia|exact J2]. }
    exact ND.
  - apply in_concat. eexists. split; [eapply nth_error_In; exact Ni|]. assert (c = 97 \/ c = 98 \/ c = 99 \/ c = 100) as [-> | [-> | [-> | ->]]] by lia; cbn; auto.
Qed.
Lemma subs_ok s : (forall k p, getitem s k = Ok p -> exists r l, r_d p = Some r /\ l_d p = Some l) -> exists d, analytical_subs_d s = Ok d.
Proof.
  intros H. unfold analytical_subs_d. destruct (rmapM_ok_all (fun ip => cov_items (fst ip) (snd ip)) (combine (zrange 1 (Z.of_nat (length s) + 1)) s)) as (ls & ->).
  - intros [i p] I. apply enum_In in I. destruct I as [R E]. destruct (H i p) as (r & l & Er & El).
    + rewrite getitem_nth. unfold zlen. rewrite (proj2 (Z.leb_le 1 i)), (proj2 (Z.leb_le i _)) by lia. cbn [andb]. rewrite E. reflexivity.
    + cbn [fst snd]. unfold cov_items. rewrite Er, El. eauto.
  - cbn [rmap]. eauto.
Qed.
Lemma get_exists s i : 1 <= i <= Z.of_nat (length s) -> exists p, getitem s i = Ok p.
Proof.
  intros R. rewrite getitem_nth. unfold zlen. rewrite (proj2 (Z.leb_le 1 i)), (proj2 (Z.leb_le i _)) by lia. cbn [andb]. destruct (nth_error s (Z.to_nat (i - 1))) eqn:E; [eauto|]. apply nth_error_None in E. lia.
Qed.
Lemma image_split n perm conj s s' : (0 < n)%nat -> is_perm n perm -> length s = n -> different s -> image (perm, conj) s = Ok s' ->
  exists t, s' = (if conj then ps_flip t else t) /\ Permutation t s /\ length t = n /\ forall k, getitem t (papp perm k) = getitem s k.
Proof.
  intros N P L D I. destruct (image_perm s perm n P L N D) as (t & E & Lt & G). exists t. unfold image in I. cbn [fst snd] in I. rewrite E in I. cbn [rmap] in I. injection I as <-. split; [reflexivity|]. split; [exact (image_rearranges _ _ _ E)|auto].
Qed.
Lemma cov_points n perm conj s s' d : (0 < n)%nat -> is_perm n perm -> length s = n -> different s -> sound s -> Forall plain s -> image (perm, conj) s = Ok s' -> analytical_subs_d s = Ok d ->
  exists d', analytical_subs_d s' = Ok d' /\ forall c i, covariant_var (Z.of_nat n) c i -> dict_get ((if conj then swap_abcd c else c) :: dec (papp perm i)) d' = dict_get (c :: dec i) d.
Proof.
  intros N P L D S Pl I Es. destruct (image_split n perm conj s s' N P L D I) as (t & -> & Pt & Lt & G).
  assert (St : sound t) by (apply Forall_forall; intros x Ix; apply (proj1 (Forall_forall _ _) S), (Permutation_in _ Pt Ix)).
  assert (Plt : Forall plain t) by (apply Forall_forall; intros x Ix; apply (proj1 (Forall_forall _ _) Pl), (Permutation_in _ Pt Ix)).
  assert (B : forall k p, getitem t k = Ok p -> exists r l, r_d p = Some r /\ l_d p = Some l).
  { intros k p Gk. destruct (papp_surj n perm k P) as (j & <- & _). rewrite G in Gk. exact (proj1 (subs_get s d j p Es Gk)). }
  assert (Fl : forall p, In p t -> (exists r l, r_d p = Some r /\ l_d p = Some l) -> let q := fst (angles_for_squares p) in r_d q = l_d p /\ l_d q = r_d p).
  { intros p Ip (r & l & Er & El). cbv zeta. destruct (flip_plain p (proj1 (Forall_forall _ _) St p Ip) (proj1 (Forall_forall _ _) Plt p Ip)) as (Hr & Hl & _). cbv zeta in Hr, Hl. auto. }
  assert (In_get : forall k p, getitem t k = Ok p -> In p t). { intros k p Gk. rewrite getitem_nth in Gk. destruct (_ && _); [|discriminate Gk]. destruct (nth_error t _) eqn:En; [|discriminate Gk]. injection Gk as ->. eapply nth_error_In; exact En. }
  destruct conj.
  - destruct (subs_ok (ps_flip t)) as (d' & Ed').
    { intros k q Gq. unfold ps_flip in Gq. rewrite getitem_map in Gq. destruct (getitem t k) as [p|] eqn:Gp; [|discriminate Gq]. injection Gq as <-. destruct (B k p Gp) as (r & l & Er & El). destruct (Fl p (In_get k p Gp) (B k p Gp)) as [-> ->]. eauto. }
    exists d'. split; [exact Ed'|]. intros c i [Hc Hi]. assert (Hi' : 1 <= i <= Z.of_nat (length s)) by lia. destruct (get_exists s i Hi') as (p & Gp). destruct (subs_get s d i p Es Gp) as [Bp V]. rewrite (V c Hc).
    assert (Gt : getitem t (papp perm i) = Ok p) by (rewrite G; exact Gp). assert (Gf : getitem (ps_flip t) (papp perm i) = Ok (fst (angles_for_squares p))) by (unfold ps_flip; rewrite getitem_map, Gt; reflexivity).
    destruct (subs_get _ d' _ _ Ed' Gf) as [_ V']. rewrite V' by (unfold swap_abcd; assert (c = 97 \/ c = 98 \/ c = 99 \/ c = 100) as [-> | [-> | [-> | ->]]] by lia; cbn; lia).
    destruct (Fl p (In_get _ _ Gt) Bp) as [E1 E2]. unfold component. rewrite E1, E2. destruct Bp as (r & l & Er & El). rewrite Er, El. assert (c = 97 \/ c = 98 \/ c = 99 \/ c = 100) as [-> | [-> | [-> | ->]]] by lia; reflexivity.
  - destruct (subs_ok t B) as (d' & Ed'). exists d'. split; [exact Ed'|]. intros c i [Hc Hi]. assert (Hi' : 1 <= i <= Z.of_nat (length s)) by lia. destruct (get_exists s i Hi') as (p & Gp). destruct (subs_get s d i p Es Gp) as [Bp V]. rewrite (V c Hc).
    assert (Gt : getitem t (papp perm i) = Ok p) by (rewrite G; exact Gp). destruct (subs_get _ d' _ _ Ed' Gt) as [_ V']. apply V'. exact Hc.
Qed.
End Points.
Theorem covariant_ok n perm conj e : (0 < n <= 9)%nat -> is_perm n perm -> sum e -> vars (covariant_var (Z.of_nat n)) e ->
  exists e', covariant_poly_image (text e) (perm, conj) = Ok (text e') /\ sum e' /\ vars (covariant_var (Z.of_nat n)) e' /\
  forall (K : Fld) (s s' : ps K) (d : dict K), length s = n -> different s -> sound s -> Forall plain s -> image (perm, conj) s = Ok s' -> analytical_subs_d s = Ok d ->
  exists d', analytical_subs_d s' = Ok d' /\ value (fun x => dict_get x d') e' = value (fun x => dict_get x d) e.
Proof.
  intros [N N9] P Se V. exists (ren (cov_var perm conj) e). split; [apply (cov_image_text n); auto using sum_nonneg|]. split.
  { rewrite (ren_ext (covariant_var (Z.of_nat n)) _ (fun c i => Var (if conj then swap_abcd c else c) (if 1 <=? i then Z.abs (papp perm i) else 0)) _ V).
    - apply ren_sum; [|exact Se]. intros c i _. constructor. destruct (1 <=? i); lia.
    - intros c i [_ Hi]. unfold cov_var. rewrite (proj2 (Z.leb_le 1 i)) by lia. f_equal. assert (R := papp_range n perm i P Hi). lia. }
  split.
  { apply (vars_ren _ _ _ _ V). intros c i [Hc Hi]. cbn. assert (R := papp_range n perm i P Hi). split; [|exact R]. destruct conj; [|exact Hc]. unfold swap_abcd. assert (c = 97 \/ c = 98 \/ c = 99 \/ c = 100) as [-> | [-> | [-> | ->]]] by lia; cbn; lia. }
  intros K s s' d L D S Pl I Es. destruct (cov_points n perm conj s s' d N P L D S Pl I Es) as (d' & Ed' & H). exists d'. split; [exact Ed'|]. apply (value_ren _ _ _ _ _ V). intros c i Hci. apply H, Hci.
Qed.
