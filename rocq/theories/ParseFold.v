(* From expressions to what the parser gets. *)
From Coq Require Import Ascii String.
From Coq Require Import List ZArith Bool Lia.
From Verif Require Import Base Str Symm Parse ParseSpec MassesThm GenThm ParseStars ParseLex ParseTree.
Import ListNotations.
Open Scope Z_scope.

(* ---- inversions ---- *)
Lemma factor_term e : factor e -> term e. Proof. apply term_factor. Qed.
Lemma atom_sum e : atom e -> sum e. Proof. intros H. apply sum_term, term_factor, factor_atom, H. Qed.
Lemma factor_sum e : factor e -> sum e. Proof. intros H. apply sum_term, term_factor, H. Qed.
Ltac inv H := inversion H; subst; clear H.
Ltac lvl := repeat match goal with
  | H : sum (_ _) |- _ => inv H | H : term (_ _) |- _ => inv H | H : factor (_ _) |- _ => inv H | H : atom (_ _) |- _ => inv H
  | H : sum (_ _ _) |- _ => inv H | H : term (_ _ _) |- _ => inv H | H : factor (_ _ _) |- _ => inv H | H : atom (_ _ _) |- _ => inv H end.
Lemma sum_Num n : sum (Num n) -> 0 <= n. Proof. intros H. lvl. assumption. Qed.
Lemma sum_Inv a : sum (Inv a) -> inv_ok a. Proof. intros H. lvl. assumption. Qed.
Lemma sum_Par a : sum (Par a) -> sum a. Proof. intros H. inv H. inv H0. inv H. inv H0. assumption. Qed.
Lemma sum_Pow a b : sum (Pow a b) -> atom a /\ factor b. Proof. intros H. inv H. inv H0. inv H; [inv H0|auto]. Qed.
Lemma sum_Neg a : sum (Neg a) -> factor a. Proof. intros H. inv H. inv H0. inv H; [inv H0|auto]. Qed.
Lemma sum_Pos a : sum (Pos a) -> factor a. Proof. intros H. inv H. inv H0. inv H; [inv H0|auto]. Qed.
Lemma sum_Mul a b : sum (Mul a b) -> term a /\ factor b. Proof. intros H. inv H. inv H0; [inv H; inv H0|auto]. Qed.
Lemma sum_Div a b : sum (Div a b) -> term a /\ factor b. Proof. intros H. inv H. inv H0; [inv H; inv H0|auto]. Qed.
Lemma sum_Jux a b : sum (Jux a b) -> term a /\ factor b /\ may_touch (toks [] a) (toks [] b). Proof. intros H. inv H. inv H0; [inv H; inv H0|auto]. Qed.
Lemma sum_Add a b : sum (Add a b) -> sum a /\ term b. Proof. intros H. inv H; [inv H0; inv H; inv H0|auto]. Qed.
Lemma sum_Sub a b : sum (Sub a b) -> sum a /\ term b. Proof. intros H. inv H; [inv H0; inv H; inv H0|auto]. Qed.
Ltac sinv H := first [apply sum_Num in H | apply sum_Inv in H | apply sum_Par in H | apply sum_Pow in H | apply sum_Neg in H | apply sum_Pos in H | apply sum_Mul in H | apply sum_Div in H | apply sum_Jux in H | apply sum_Add in H | apply sum_Sub in H].

(* ---- symbols at the ends ---- *)
Lemma first_tok j e : exists t r, toks j e = t :: r /\ is_S t || is_sgn t = true.
Proof.
  induction e as [n|a|a IH|a IHa b IHb|a IH|a IH|a IHa b IHb|a IHa b IHb|a IHa b IHb|a IHa b IHb|a IHa b IHb]; cbn [toks]; try (eexists; eexists; split; [reflexivity|reflexivity]);
    destruct IHa as (t & r & -> & E); exists t; eexists; (split; [reflexivity|exact E]).
Qed.
Lemma last_tok j e : exists l t, toks j e = l ++ [t] /\ is_E t = true.
Proof.
  induction e as [n|a|a IH|a IHa b IHb|a IH|a IH|a IHa b IHb|a IHa b IHb|a IHa b IHb|a IHa b IHb|a IHa b IHb]; cbn [toks].
  - exists [], (TNum n). split; reflexivity.
  - exists [], (TInv a). split; reflexivity.
  - exists (TL :: toks j a), TR. split; reflexivity.
  - destruct IHb as (l & t & -> & E). exists (toks j a ++ TCaret :: l), t. split; [rewrite <- app_assoc; reflexivity|exact E].
  - destruct IH as (l & t & -> & E). exists (TMinus :: l), t. split; [reflexivity|exact E].
  - destruct IH as (l & t & -> & E). exists (TPlus :: l), t. split; [reflexivity|exact E].
  - destruct IHb as (l & t & -> & E). exists (toks j a ++ TStar :: l), t. split; [rewrite <- app_assoc; reflexivity|exact E].
  - destruct IHb as (l & t & -> & E). exists (toks j a ++ j ++ l), t. split; [rewrite <- !app_assoc; reflexivity|exact E].
  - destruct IHb as (l & t & -> & E). exists (toks j a ++ TSlash :: l), t. split; [rewrite <- app_assoc; reflexivity|exact E].
  - destruct IHb as (l & t & -> & E). exists (toks j a ++ TPlus :: l), t. split; [rewrite <- app_assoc; reflexivity|exact E].
  - destruct IHb as (l & t & -> & E). exists (toks j a ++ TMinus :: l), t. split; [rewrite <- app_assoc; reflexivity|exact E].
Qed.
Lemma toks_ok j e : Forall tok_ok j -> sum e -> Forall tok_ok (toks j e).
Proof.
  intros J. induction e as [n|a|a IH|a IHa b IHb|a IH|a IH|a IHa b IHb|a IHa b IHb|a IHa b IHb|a IHa b IHb|a IHa b IHb]; intros H; sinv H; cbn [toks].
  - constructor; [exact H|constructor].
  - constructor; [exact H|constructor].
  - constructor; [exact I|]. apply Forall_app. split; [apply IH, H|repeat constructor].
  - apply Forall_app. split; [apply IHa, atom_sum, H|]. constructor; [exact I|apply IHb, factor_sum, H].
  - constructor; [exact I|apply IH, factor_sum, H].
  - constructor; [exact I|apply IH, factor_sum, H].
  - apply Forall_app. split; [apply IHa, sum_term, H|]. constructor; [exact I|apply IHb, factor_sum, H].
  - apply Forall_app. split; [apply IHa, sum_term, H|]. apply Forall_app. split; [exact J|apply IHb, factor_sum, H].
  - apply Forall_app. split; [apply IHa, sum_term, H|]. constructor; [exact I|apply IHb, factor_sum, H].
  - apply Forall_app. split; [apply IHa, H|]. constructor; [exact I|apply IHb, sum_term, H].
  - apply Forall_app. split; [apply IHa, H|]. constructor; [exact I|apply IHb, sum_term, H].
Qed.
(* ---- neighbours ---- *)
Definition is_op (t : tok) : Prop := is_E t = false /\ is_S t = false.
Lemma adj_bin (R : tok -> tok -> bool) j a b op : (forall t t', okpair t t' = true -> R t t' = true) -> In op [TCaret; TStar; TSlash; TPlus; TMinus] ->
  adj R (toks j a) -> adj R (toks j b) -> adj R (toks j a ++ op :: toks j b).
Proof.
  intros H O A B. destruct (last_tok j a) as (l & t & Ea & Et), (first_tok j b) as (t' & r & Eb & Et'). rewrite Ea, Eb in *. rewrite <- app_assoc. cbn [app].
  apply adj_app; [exact A| |].
  - apply adj_cons; [|exact B]. apply H. unfold okpair. inl O; exact Et'.
  - apply H. unfold okpair. rewrite Et. inl O; reflexivity.
Qed.
Lemma adj_sgn (R : tok -> tok -> bool) j a op : (forall t t', okpair t t' = true -> R t t' = true) -> In op [TPlus; TMinus] -> adj R (toks j a) -> adj R (op :: toks j a).
Proof.
  intros H O A. destruct (first_tok j a) as (t' & r & Eb & Et'). rewrite Eb in *. apply adj_cons; [|exact A]. apply H. unfold okpair. inl O; exact Et'.
Qed.
Lemma adj_par (R : tok -> tok -> bool) j a : (forall t t', okpair t t' = true -> R t t' = true) -> adj R (toks j a) -> adj R (TL :: toks j a ++ [TR]).
Proof.
  intros H A. destruct (last_tok j a) as (l & t & Ea & Et), (first_tok j a) as (t' & r & Eb & Et').
  assert (B : adj R (toks j a ++ [TR])). { rewrite Ea, <- app_assoc. cbn [app]. rewrite Ea in A. apply adj_app; [exact A|apply adj_one|]. apply H. unfold okpair. rewrite Et. reflexivity. }
  rewrite Eb in *. apply adj_cons; [|exact B]. apply H. exact Et'.
Qed.
Lemma ok_ok t t' : okpair t t' = true -> okpair t t' = true. Proof. trivial. Qed.
Lemma adj_symbols e : adj okpair (symbols e).
Proof.
  unfold symbols. induction e as [n|a|a IH|a IHa b IHb|a IH|a IH|a IHa b IHb|a IHa b IHb|a IHa b IHb|a IHa b IHb|a IHa b IHb]; cbn [toks]; try apply adj_one;
    try (apply adj_bin; try assumption; try exact ok_ok; cbn; tauto); try (apply adj_sgn; try assumption; try exact ok_ok; cbn; tauto).
  - apply adj_par; [exact ok_ok|exact IH].
Qed.
Lemma okpair_raw t t' : okpair t t' = true -> rawpair t t' = true.
Proof. intros H. unfold rawpair. rewrite H. cbn [orb andb]. destruct t as [|[]| | | | | | |], t'; try reflexivity; discriminate H. Qed.
Lemma touch_ends u v : may_touch u v -> exists l x y r, u = l ++ [x] /\ v = y :: r /\ touchp x y = true /\ rawpair x y = true.
Proof.
  intros H. destruct H as [| | | | | | |l r a n Hm]; eexists; eexists; eexists; eexists; (split; [reflexivity|]); (split; [reflexivity|]); try (split; reflexivity); try (destruct a; split; reflexivity).
  split; [reflexivity|]. unfold rawpair. rewrite Hm. reflexivity.
Qed.
Lemma adj_raw e : sum e -> adj rawpair (toks [] e).
Proof.
  induction e as [n|a|a IH|a IHa b IHb|a IH|a IH|a IHa b IHb|a IHa b IHb|a IHa b IHb|a IHa b IHb|a IHa b IHb]; intros H; sinv H; cbn [toks]; try apply adj_one.
  - apply adj_par; [exact okpair_raw|apply IH, H].
  - apply adj_bin; [exact okpair_raw|cbn; tauto|apply IHa, atom_sum, H|apply IHb, factor_sum, H].
  - apply adj_sgn; [exact okpair_raw|cbn; tauto|apply IH, factor_sum, H].
  - apply adj_sgn; [exact okpair_raw|cbn; tauto|apply IH, factor_sum, H].
  - apply adj_bin; [exact okpair_raw|cbn; tauto|apply IHa, sum_term, H|apply IHb, factor_sum, H].
  - destruct H as (Ha & Hb & T). specialize (IHa (sum_term _ Ha)). specialize (IHb (factor_sum _ Hb)). destruct (touch_ends _ _ T) as (l & x & y & r & E1 & E2 & _ & R).
    cbn [app]. rewrite E1, E2 in *. rewrite <- app_assoc. cbn [app]. apply adj_app; assumption.
  - apply adj_bin; [exact okpair_raw|cbn; tauto|apply IHa, sum_term, H|apply IHb, factor_sum, H].
  - apply adj_bin; [exact okpair_raw|cbn; tauto|apply IHa, H|apply IHb, sum_term, H].
  - apply adj_bin; [exact okpair_raw|cbn; tauto|apply IHa, H|apply IHb, sum_term, H].
Qed.
Lemma tstar_app p l x y r : tstar p (l ++ x :: y :: r) = tstar p (l ++ [x]) ++ (if p x y then [TStar] else []) ++ tstar p (y :: r).
Proof.
  induction l as [|a l IH].
  - cbn [app]. change (tstar p (x :: y :: r)) with (if p x y then x :: TStar :: tstar p (y :: r) else x :: tstar p (y :: r)). destruct (p x y); reflexivity.
  - destruct l as [|b l].
    + cbn [app] in *. change (tstar p (a :: x :: y :: r)) with (if p a x then a :: TStar :: tstar p (x :: y :: r) else a :: tstar p (x :: y :: r)). rewrite IH. cbn [tstar]. destruct (p a x); reflexivity.
    + cbn [app] in *. change (tstar p (a :: b :: l ++ x :: y :: r)) with (if p a b then a :: TStar :: tstar p (b :: l ++ x :: y :: r) else a :: tstar p (b :: l ++ x :: y :: r)). rewrite IH.
      change (tstar p (a :: b :: l ++ [x])) with (if p a b then a :: TStar :: tstar p (b :: l ++ [x]) else a :: tstar p (b :: l ++ [x])). destruct (p a b); reflexivity.
Qed.
Lemma touch_ok t t' : okpair t t' = true -> touchp t t' = false.
Proof. unfold okpair, touchp. destruct (is_E t); [|reflexivity]. destruct (is_S t'); [discriminate|reflexivity]. Qed.
Lemma tstar_bin a b op : In op [TCaret; TStar; TSlash; TPlus; TMinus] -> tstar touchp (toks [] a ++ op :: toks [] b) = tstar touchp (toks [] a) ++ op :: tstar touchp (toks [] b).
Proof.
  intros O. destruct (last_tok [] a) as (l & t & Ea & Et), (first_tok [] b) as (t' & r & Eb & Et'). rewrite Ea, Eb, <- app_assoc. cbn [app]. rewrite tstar_app.
  replace (touchp t op) with false by (unfold touchp; inl O; rewrite andb_false_r; reflexivity). f_equal. cbn [app].
  change (tstar touchp (op :: t' :: r)) with (if touchp op t' then op :: TStar :: tstar touchp (t' :: r) else op :: tstar touchp (t' :: r)). replace (touchp op t') with false by (inl O; reflexivity). reflexivity.
Qed.
Lemma tstar_sgn a op : In op [TPlus; TMinus; TL] -> tstar touchp (op :: toks [] a) = op :: tstar touchp (toks [] a).
Proof.
  intros O. destruct (first_tok [] a) as (t' & r & Eb & Et'). rewrite Eb. change (tstar touchp (op :: t' :: r)) with (if touchp op t' then op :: TStar :: tstar touchp (t' :: r) else op :: tstar touchp (t' :: r)).
  replace (touchp op t') with false by (inl O; reflexivity). reflexivity.
Qed.
Lemma tstar_symbols e : sum e -> tstar touchp (toks [] e) = symbols e.
Proof.
  unfold symbols. induction e as [n|a|a IH|a IHa b IHb|a IH|a IH|a IHa b IHb|a IHa b IHb|a IHa b IHb|a IHa b IHb|a IHa b IHb]; intros H; sinv H; cbn [toks]; try reflexivity.
  - specialize (IH H). destruct (last_tok [] a) as (l & t & Ea & Et). assert (E : tstar touchp (toks [] a ++ [TR]) = toks [TStar] a ++ [TR]).
    { rewrite Ea, <- app_assoc. cbn [app]. rewrite tstar_app, <- Ea, IH. replace (touchp t TR) with false by (unfold touchp; rewrite andb_false_r; reflexivity). reflexivity. }
    destruct (first_tok [] a) as (t' & r & Eb & Et'). rewrite Eb in *. cbn [app] in *.
    change (tstar touchp (TL :: t' :: r ++ [TR])) with (TL :: tstar touchp (t' :: r ++ [TR])). rewrite E. reflexivity.
  - rewrite tstar_bin by (cbn; tauto). rewrite IHa by (apply atom_sum, H). rewrite IHb by (apply factor_sum, H). reflexivity.
  - rewrite tstar_sgn by (cbn; tauto). rewrite IH by (apply factor_sum, H). reflexivity.
  - rewrite tstar_sgn by (cbn; tauto). rewrite IH by (apply factor_sum, H). reflexivity.
  - rewrite tstar_bin by (cbn; tauto). rewrite IHa by (apply sum_term, H). rewrite IHb by (apply factor_sum, H). reflexivity.
  - destruct H as (Ha & Hb & T). specialize (IHa (sum_term _ Ha)). specialize (IHb (factor_sum _ Hb)). destruct (touch_ends _ _ T) as (l & x & y & r & E1 & E2 & P & _).
    cbn [app]. rewrite E1, E2, <- app_assoc. cbn [app]. rewrite tstar_app, P, <- E1, <- E2, IHa, IHb. reflexivity.
  - rewrite tstar_bin by (cbn; tauto). rewrite IHa by (apply sum_term, H). rewrite IHb by (apply factor_sum, H). reflexivity.
  - rewrite tstar_bin by (cbn; tauto). rewrite IHa by (apply H). rewrite IHb by (apply sum_term, H). reflexivity.
  - rewrite tstar_bin by (cbn; tauto). rewrite IHa by (apply H). rewrite IHb by (apply sum_term, H). reflexivity.
Qed.

(* ---- fractions in trees ---- *)
(* the last number, if it is not an exponent, over b *)
Fixpoint div_last (f : fexpr) (b : Z) : option fexpr :=
  match f with
  | PNum a => Some (PFrac a b)
  | PMul x y => option_map (PMul x) (div_last y b)
  | PDiv x y => option_map (PDiv x) (div_last y b)
  | PAdd x y => option_map (PAdd x) (div_last y b)
  | PSub x y => option_map (PSub x) (div_last y b)
  | PNeg y => option_map PNeg (div_last y b)
  | PPos y => option_map PPos (div_last y b)
  | PPow x y => match y with PNum _ => None | _ => option_map (PPow x) (div_last y b) end
  | PFrac _ _ | PInv _ | PPar _ => None
  end.
Fixpoint fold (e : expr) : fexpr :=
  match e with
  | Num n => PNum n | Inv a => PInv a | Par a => PPar (fold a) | Pow a b => PPow (fold a) (fold b) | Neg a => PNeg (fold a) | Pos a => PPos (fold a)
  | Mul a b | Jux a b => PMul (fold a) (fold b)
  | Add a b => PAdd (fold a) (fold b) | Sub a b => PSub (fold a) (fold b)
  | Div a b => match b with
               | Num n => match div_last (fold a) n with Some f => f | None => PDiv (fold a) (PNum n) end
               | _ => PDiv (fold a) (fold b)
               end
  end.
Lemma div_last_twice f b c : forall f', div_last f b = Some f' -> div_last f' c = None.
Proof.
  induction f as [n|x y|i|f IH|f IHf g IHg|f IH|f IH|f IHf g IHg|f IHf g IHg|f IHf g IHg|f IHf g IHg]; intros f' H; cbn [div_last] in H; try discriminate H;
    try (destruct (div_last f b) as [h|]; [|discriminate H]; injection H as <-; cbn [div_last]; rewrite (IH h eq_refl); reflexivity);
    try (destruct (div_last g b) as [h|]; [|discriminate H]; injection H as <-; cbn [div_last]; rewrite (IHg h eq_refl); reflexivity).
  - injection H as <-. reflexivity.
  - assert (X : option_map (PPow f) (div_last g b) = Some f') by (destruct g; [discriminate H|..]; exact H). clear H.
    destruct (div_last g b) as [h|]; [|discriminate X]. injection X as <-. cbn [div_last]. rewrite (IHg h eq_refl). destruct h; reflexivity.
Qed.
Lemma div_last_lv f b f' : div_last f b = Some f' -> wfp f -> wfp f' /\ lv f' = lv f.
Proof.
  revert f'. induction f as [n|x y|i|f IH|f IHf g IHg|f IH|f IH|f IHf g IHg|f IHf g IHg|f IHf g IHg|f IHf g IHg]; intros f' H W; cbn [div_last] in H; try discriminate H.
  - injection H as <-. split; [exact I|reflexivity].
  - assert (X : option_map (PPow f) (div_last g b) = Some f') by (destruct g; [discriminate H|..]; exact H). clear H.
    destruct (div_last g b) as [h|]; [|discriminate X]. injection X as <-. cbn [wfp] in *. destruct W as (W1 & W2 & L1 & L2). destruct (IHg h eq_refl W2) as (W3 & E). rewrite E. split; [tauto|reflexivity].
  - destruct (div_last f b) as [h|]; [|discriminate H]. injection H as <-. cbn [wfp] in *. destruct W as (W & L). destruct (IH h eq_refl W) as (W3 & E). rewrite E. split; [tauto|reflexivity].
  - destruct (div_last f b) as [h|]; [|discriminate H]. injection H as <-. cbn [wfp] in *. destruct W as (W & L). destruct (IH h eq_refl W) as (W3 & E). rewrite E. split; [tauto|reflexivity].
  - destruct (div_last g b) as [h|]; [|discriminate H]. injection H as <-. cbn [wfp] in *. destruct W as (W1 & W2 & L). destruct (IHg h eq_refl W2) as (W3 & E). rewrite E. split; [tauto|reflexivity].
  - destruct (div_last g b) as [h|]; [|discriminate H]. injection H as <-. cbn [wfp] in *. destruct W as (W1 & W2 & L). destruct (IHg h eq_refl W2) as (W3 & E). rewrite E. split; [tauto|reflexivity].
  - destruct (div_last g b) as [h|]; [|discriminate H]. injection H as <-. cbn [wfp] in *. destruct W as (W1 & W2 & L). destruct (IHg h eq_refl W2) as (W3 & E). rewrite E. split; [tauto|reflexivity].
  - destruct (div_last g b) as [h|]; [|discriminate H]. injection H as <-. cbn [wfp] in *. destruct W as (W1 & W2 & L). destruct (IHg h eq_refl W2) as (W3 & E). rewrite E. split; [tauto|reflexivity].
Qed.
Lemma fold_div a b : fold (Div a b) = match b with Num n => match div_last (fold a) n with Some f => f | None => PDiv (fold a) (PNum n) end | _ => PDiv (fold a) (fold b) end.
Proof. reflexivity. Qed.
Lemma fold_wf e : (atom e -> wfp (fold e) /\ lv (fold e) = 3%nat) /\ (factor e -> wfp (fold e) /\ (2 <= lv (fold e))%nat) /\ (term e -> wfp (fold e) /\ (1 <= lv (fold e))%nat) /\ (sum e -> wfp (fold e)).
Proof.
  induction e as [n|x|a IH|a IHa b IHb|a IH|a IH|a IHa b IHb|a IHa b IHb|a IHa b IHb|a IHa b IHb|a IHa b IHb].
  - cbn. repeat split; lia.
  - cbn. repeat split; lia.
  - assert (X : sum (Par a) -> wfp (fold (Par a)) /\ lv (fold (Par a)) = 3%nat) by (intros H; sinv H; cbn; split; [apply IH, H|reflexivity]).
    split; [intros H; apply X, atom_sum, H|]. split; [intros H; destruct (X (factor_sum _ H)) as [? E]; rewrite E; split; [assumption|lia]|]. split; [intros H; destruct (X (sum_term _ H)) as [? E]; rewrite E; split; [assumption|lia]|]. intros H. apply X, H.
  - assert (X : sum (Pow a b) -> wfp (fold (Pow a b)) /\ lv (fold (Pow a b)) = 2%nat) by (intros H; sinv H; cbn; tauto).
    split; [intros H; inv H|]. split; [intros H; destruct (X (factor_sum _ H)) as [? E]; rewrite E; split; [assumption|lia]|]. split; [intros H; destruct (X (sum_term _ H)) as [? E]; rewrite E; split; [assumption|lia]|]. intros H. apply X, H.
  - assert (X : sum (Neg a) -> wfp (fold (Neg a)) /\ lv (fold (Neg a)) = 2%nat) by (intros H; sinv H; cbn; tauto).
    split; [intros H; inv H|]. split; [intros H; destruct (X (factor_sum _ H)) as [? E]; rewrite E; split; [assumption|lia]|]. split; [intros H; destruct (X (sum_term _ H)) as [? E]; rewrite E; split; [assumption|lia]|]. intros H. apply X, H.
  - assert (X : sum (Pos a) -> wfp (fold (Pos a)) /\ lv (fold (Pos a)) = 2%nat) by (intros H; sinv H; cbn; tauto).
    split; [intros H; inv H|]. split; [intros H; destruct (X (factor_sum _ H)) as [? E]; rewrite E; split; [assumption|lia]|]. split; [intros H; destruct (X (sum_term _ H)) as [? E]; rewrite E; split; [assumption|lia]|]. intros H. apply X, H.
  - assert (X : sum (Mul a b) -> wfp (fold (Mul a b)) /\ lv (fold (Mul a b)) = 1%nat) by (intros H; sinv H; cbn; tauto).
    split; [intros H; inv H|]. split; [intros H; inv H; inv H0|]. split; [intros H; destruct (X (sum_term _ H)) as [? E]; rewrite E; split; [assumption|lia]|]. intros H. apply X, H.
  - assert (X : sum (Jux a b) -> wfp (fold (Jux a b)) /\ lv (fold (Jux a b)) = 1%nat) by (intros H; sinv H; cbn; tauto).
    split; [intros H; inv H|]. split; [intros H; inv H; inv H0|]. split; [intros H; destruct (X (sum_term _ H)) as [? E]; rewrite E; split; [assumption|lia]|]. intros H. apply X, H.
  - assert (X : sum (Div a b) -> wfp (fold (Div a b)) /\ (1 <= lv (fold (Div a b)))%nat).
    { intros H. sinv H. destruct H as [Ha Hb]. destruct IHa as (_ & _ & IHa & _). destruct (IHa Ha) as [Wa La]. destruct IHb as (_ & IHb & _). destruct (IHb Hb) as [Wb Lb].
      assert (Y : wfp (PDiv (fold a) (fold b)) /\ (1 <= lv (PDiv (fold a) (fold b)))%nat) by (cbn; repeat split; try assumption; lia).
      rewrite fold_div. destruct b; try exact Y. destruct (div_last (fold a) n) as [f|] eqn:E; [|exact Y]. destruct (div_last_lv _ _ _ E Wa) as [W L]. rewrite L. auto. }
    split; [intros H; inv H|]. split; [intros H; inv H; inv H0|]. split; [intros H; apply X, sum_term, H|]. intros H. apply X, H.
  - assert (X : sum (Add a b) -> wfp (fold (Add a b))) by (intros H; sinv H; cbn; tauto).
    split; [intros H; inv H|]. split; [intros H; inv H; inv H0|]. split; [intros H; inv H; inv H0; inv H|]. exact X.
  - assert (X : sum (Sub a b) -> wfp (fold (Sub a b))) by (intros H; sinv H; cbn; tauto).
    split; [intros H; inv H|]. split; [intros H; inv H; inv H0|]. split; [intros H; inv H; inv H0; inv H|]. exact X.
Qed.
(* ---- clashes ---- *)
Lemma clash_suf l s : clash l -> clash (l ++ s).
Proof.
  intros H. destruct H as [l sg a b r F|l sg a b r F N0|l a b r G|l a b r G].
  - replace ((l ++ TSlash :: sg ++ TNum a :: TSlash :: TNum b :: r) ++ s) with (l ++ TSlash :: sg ++ TNum a :: TSlash :: TNum b :: (r ++ s)) by (repeat (rewrite <- app_assoc; cbn [app]); reflexivity). constructor. exact F.
  - replace ((l ++ TCaret :: sg ++ TNum a :: TSlash :: TNum b :: r) ++ s) with (l ++ TCaret :: sg ++ TNum a :: TSlash :: TNum b :: (r ++ s)) by (repeat (rewrite <- app_assoc; cbn [app]); reflexivity). constructor; assumption.
  - rewrite <- app_assoc. cbn [app]. apply clash_pow; exact G.
  - rewrite <- app_assoc. cbn [app]. apply clash_exp; exact G.
Qed.
Lemma ends_caret (p l : list tok) : (forall l', l <> l' ++ [TCaret]) -> (l = [] -> forall p', p <> p' ++ [TCaret]) -> forall l', p ++ l <> l' ++ [TCaret].
Proof.
  intros H1 H2 l' E. destruct (list_eq_dec (fun x y : nat => Nat.eq_dec x y) [] []) as [_|X]; [|congruence].
  destruct l as [|x l]; [rewrite app_nil_r in E; exact (H2 eq_refl _ E)|]. destruct (exists_last (l := x :: l) ltac:(discriminate)) as (u & c & Eu). rewrite Eu, app_assoc in E. apply app_inj_tail in E. destruct E as [_ ->]. exact (H1 u Eu).
Qed.
Definition frac_first (l : list tok) : bool := match l with TNum _ :: TSlash :: _ => true | _ => false end.
Lemma clash_pre p l : clash l -> (forall p', p <> p' ++ [TCaret]) \/ frac_first l = false -> clash (p ++ l).
Proof.
  intros H D. destruct H as [l sg a b r F|l sg a b r F N0|l a b r G|l a b r G].
  - rewrite app_assoc. constructor. exact F.
  - rewrite app_assoc. constructor; assumption.
  - rewrite app_assoc. apply clash_pow; exact G.
  - rewrite app_assoc. apply clash_exp. apply ends_caret; [exact G|]. intros -> p'. destruct D as [D|D]; [apply D|discriminate D].
Qed.
Lemma end_not (l : list tok) t : t <> TCaret -> forall l', l ++ [t] <> l' ++ [TCaret].
Proof. intros N l' E. apply app_inj_tail in E. destruct E as [_ ->]. congruence. Qed.
Lemma factor_first b r : factor b -> b <> Num (match b with Num n => n | _ => 0 end) -> frac_first (symbols b ++ r) = false.
Proof.
  intros F D. unfold symbols. assert (S := factor_sum _ F). destruct b as [n|x|a|a b|a|a|a b|a b|a b|a b|a b]; try reflexivity; try congruence; try (inv F; inv H).
  - sinv S. destruct S as [A _]. inv A; reflexivity.
Qed.
(* ---- where the last symbol is a number that can be divided ---- *)
Lemma fold_num b n : factor b -> fold b = PNum n -> b = Num n.
Proof. intros F E. destruct b; cbn [fold] in E; try discriminate E; [congruence|]. inv F. inv H. Qed.
Lemma last_cons (l : list tok) x t : l ++ [t] = x -> exists u, x = u ++ [t]. Proof. intros <-. eauto. Qed.
Definition open_end (ts : list tok) : Prop := exists l k, ts = l ++ [TNum k] /\ forall l', l <> l' ++ [TCaret].
Lemma open_app p op ts : op <> TCaret -> open_end ts -> open_end (p ++ op :: ts).
Proof.
  intros N (l & k & -> & H). exists (p ++ op :: l), k. split; [rewrite <- app_assoc; reflexivity|].
  intros l' E. replace (p ++ op :: l) with ((p ++ [op]) ++ l) in E by (rewrite <- app_assoc; reflexivity). revert E. apply ends_caret; [exact H|]. intros _. apply end_not, N.
Qed.
Lemma div_pow x y m : div_last (PPow x y) m = match y with PNum _ => None | _ => option_map (PPow x) (div_last y m) end. Proof. reflexivity. Qed.
Lemma one_num e k : symbols e = [TNum k] -> e = Num k.
Proof.
  unfold symbols. destruct e as [n|x|a|a b|a|a|a b|a b|a b|a b|a b]; cbn [toks]; intros H; try discriminate H; try congruence;
    exfalso; destruct (first_tok [TStar] a) as (t & r & E & _); rewrite E in H; cbn [app] in H; injection H as _ H; destruct r; discriminate H.
Qed.
Lemma open_last e : forall m, sum e -> div_last (fold e) m <> None -> open_end (symbols e).
Proof.
  unfold symbols. induction e as [n|x|a IH|a IHa b IHb|a IH|a IH|a IHa b IHb|a IHa b IHb|a IHa b IHb|a IHa b IHb|a IHa b IHb]; intros m H D; sinv H; cbn [toks].
  - exists [], n. split; [reflexivity|]. intros [|? ?]; discriminate.
  - contradiction D. reflexivity.
  - contradiction D. reflexivity.
  - destruct H as [Ha Hb]. cbn [fold] in D. rewrite div_pow in D. assert (D' : div_last (fold b) m <> None /\ forall n, fold b <> PNum n) by (destruct (fold b); try (split; [intros E; rewrite E in D; exact (D eq_refl)|discriminate]); congruence).
    destruct D' as [D1 D2]. destruct (IHb m (factor_sum _ Hb) D1) as (l & k & E & L). rewrite E. exists (toks [TStar] a ++ TCaret :: l), k. split; [rewrite <- app_assoc; reflexivity|].
    intros l' E'. destruct l as [|t l].
    + apply (D2 k). assert (X := one_num b k E). rewrite X. reflexivity.
    + replace (toks [TStar] a ++ TCaret :: t :: l) with ((toks [TStar] a ++ [TCaret]) ++ t :: l) in E' by (rewrite <- app_assoc; reflexivity). revert E'. apply ends_caret; [exact L|discriminate].
  - cbn [fold div_last] in D. assert (D' : div_last (fold a) m <> None) by (destruct (div_last (fold a) m); [discriminate|exact D]). apply (open_app []); [discriminate|]. apply (IH m (factor_sum _ H) D').
  - cbn [fold div_last] in D. assert (D' : div_last (fold a) m <> None) by (destruct (div_last (fold a) m); [discriminate|exact D]). apply (open_app []); [discriminate|]. apply (IH m (factor_sum _ H) D').
  - cbn [fold div_last] in D. assert (D' : div_last (fold b) m <> None) by (destruct (div_last (fold b) m); [discriminate|exact D]). apply open_app; [discriminate|]. apply (IHb m (factor_sum _ (proj2 H)) D').
  - cbn [fold div_last] in D. assert (D' : div_last (fold b) m <> None) by (destruct (div_last (fold b) m); [discriminate|exact D]). cbn [app]. apply open_app; [discriminate|]. destruct H as (_ & H & _). apply (IHb m (factor_sum _ H) D').
  - destruct H as [Ha Hb]. rewrite fold_div in D.
    assert (X : div_last (PDiv (fold a) (fold b)) m <> None -> open_end (toks [TStar] a ++ TSlash :: toks [TStar] b)).
    { intros D0. cbn [div_last] in D0. assert (D' : div_last (fold b) m <> None) by (destruct (div_last (fold b) m); [discriminate|exact D0]). apply open_app; [discriminate|]. apply (IHb m (factor_sum _ Hb) D'). }
    destruct b; try exact (X D). destruct (div_last (fold a) n) as [f|] eqn:E; [|exact (X D)]. rewrite (div_last_twice _ _ m _ E) in D. congruence.
  - cbn [fold div_last] in D. assert (D' : div_last (fold b) m <> None) by (destruct (div_last (fold b) m); [discriminate|exact D]). apply open_app; [discriminate|]. apply (IHb m (sum_term _ (proj2 H)) D').
  - cbn [fold div_last] in D. assert (D' : div_last (fold b) m <> None) by (destruct (div_last (fold b) m); [discriminate|exact D]). apply open_app; [discriminate|]. apply (IHb m (sum_term _ (proj2 H)) D').
Qed.
(* the last symbols of a factor that ends in a number *)
Lemma open_factor b : forall m f, factor b -> div_last (fold b) m = Some f ->
  (exists s k, symbols b = s ++ [TNum k] /\ Forall sign s) \/ (exists l s k, symbols b = l ++ TCaret :: s ++ [TNum k] /\ Forall sign s /\ s <> []).
Proof.
  unfold symbols. induction b as [n|x|a IH|a IHa b IHb|a IH|a IH|a IHa b IHb|a IHa b IHb|a IHa b IHb|a IHa b IHb|a IHa b IHb]; intros m f F D; try (exfalso; inv F; inv H; fail); assert (S := factor_sum _ F); sinv S; cbn [toks].
  - left. exists [], n. split; [reflexivity|constructor].
  - discriminate D.
  - discriminate D.
  - destruct S as [Ha Hb]. cbn [fold] in D. rewrite div_pow in D. assert (D' : exists f', div_last (fold b) m = Some f' /\ forall n, fold b <> PNum n).
    { destruct (fold b) eqn:Eb; try discriminate D; rewrite <- Eb in *; (destruct (div_last (fold b) m) as [f'|]; [|discriminate D]); exists f'; (split; [reflexivity|]); intros n X; rewrite Eb in X; discriminate X. }
    destruct D' as (f' & D1 & D2). right. destruct (IHb m f' Hb D1) as [(s & k & E & Fs)|(l & s & k & E & Fs & N)]; rewrite E.
    + exists (toks [TStar] a), s, k. split; [reflexivity|]. split; [exact Fs|]. intros ->. apply (D2 k). rewrite (one_num b k E). reflexivity.
    + exists (toks [TStar] a ++ TCaret :: l), s, k. split; [rewrite <- app_assoc; reflexivity|]. auto.
  - cbn [fold div_last] in D. destruct (div_last (fold a) m) as [f'|] eqn:E0; [|discriminate D]. destruct (IH m f' S E0) as [(s & k & E & Fs)|(l & s & k & E & Fs & N)]; rewrite E.
    + left. exists (TMinus :: s), k. split; [reflexivity|]. constructor; [right; reflexivity|exact Fs].
    + right. exists (TMinus :: l), s, k. auto.
  - cbn [fold div_last] in D. destruct (div_last (fold a) m) as [f'|] eqn:E0; [|discriminate D]. destruct (IH m f' S E0) as [(s & k & E & Fs)|(l & s & k & E & Fs & N)]; rewrite E.
    + left. exists (TPlus :: s), k. split; [reflexivity|]. constructor; [left; reflexivity|exact Fs].
    + right. exists (TPlus :: l), s, k. auto.
Qed.
(* conversely *)
Lemma end_split (p : list tok) op ts l k : ts <> [] -> p ++ op :: ts = l ++ [TNum k] -> exists l2, ts = l2 ++ [TNum k] /\ l = p ++ op :: l2.
Proof.
  intros N E. destruct (exists_last N) as (u & c & ->). rewrite app_comm_cons, app_assoc in E. apply app_inj_tail in E. destruct E as [<- ->]. exists u. auto.
Qed.
Lemma toks_nil j e : toks j e <> []. Proof. destruct (first_tok j e) as (t & r & -> & _). discriminate. Qed.
Lemma open_tail p op ts : op <> TCaret -> ts <> [] -> open_end (p ++ op :: ts) -> open_end ts.
Proof.
  intros N T (l & k & E & H). destruct (end_split _ _ _ _ _ T E) as (l2 & -> & ->). exists l2, k. split; [reflexivity|]. intros l' ->. apply (H (p ++ op :: l')). rewrite <- app_assoc. reflexivity.
Qed.
Lemma closed_last e : forall m, integral e = true -> open_end (symbols e) -> div_last (fold e) m <> None.
Proof.
  unfold symbols. induction e as [n|x|a IH|a IHa b IHb|a IH|a IH|a IHa b IHb|a IHa b IHb|a IHa b IHb|a IHa b IHb|a IHa b IHb]; intros m I O; cbn [integral toks fold div_last] in *; try discriminate I; try discriminate.
  - destruct O as (l & k & E & _). rewrite app_comm_cons in E. apply app_inj_tail in E. destruct E as [_ E]. discriminate E.
  - apply andb_true_iff in I. destruct I as [I1 I2]. destruct O as (l & k & E & H). destruct (end_split _ _ _ _ _ (toks_nil _ _) E) as (l2 & E2 & ->). rewrite <- div_pow. rewrite div_pow.
    assert (O2 : open_end (toks [TStar] b)). { exists l2, k. split; [exact E2|]. intros l' ->. apply (H (toks [TStar] a ++ TCaret :: l')). rewrite <- app_assoc. reflexivity. }
    specialize (IHb m I2 O2). destruct (fold b) eqn:Eb; try (destruct (div_last _ m); [discriminate|congruence]).
    exfalso. assert (X : toks [TStar] b = [TNum n]). { clear - Eb I2. destruct b; cbn [fold integral] in *; try discriminate Eb; try discriminate I2. injection Eb as ->. reflexivity. }
    rewrite X in E2. destruct l2 as [|y l2]; [|destruct l2; discriminate E2]. exact (H (toks [TStar] a) eq_refl).
  - apply (open_tail []) in O; [|discriminate|apply toks_nil]. specialize (IH m I O). destruct (div_last (fold a) m); [discriminate|congruence].
  - apply (open_tail []) in O; [|discriminate|apply toks_nil]. specialize (IH m I O). destruct (div_last (fold a) m); [discriminate|congruence].
  - apply andb_true_iff in I. apply open_tail in O; [|discriminate|apply toks_nil]. specialize (IHb m (proj2 I) O). destruct (div_last (fold b) m); [discriminate|congruence].
  - apply andb_true_iff in I. cbn [app] in O. apply open_tail in O; [|discriminate|apply toks_nil]. specialize (IHb m (proj2 I) O). destruct (div_last (fold b) m); [discriminate|congruence].
  - apply andb_true_iff in I. apply open_tail in O; [|discriminate|apply toks_nil]. specialize (IHb m (proj2 I) O). destruct (div_last (fold b) m); [discriminate|congruence].
  - apply andb_true_iff in I. apply open_tail in O; [|discriminate|apply toks_nil]. specialize (IHb m (proj2 I) O). destruct (div_last (fold b) m); [discriminate|congruence].
Qed.
(* ---- fractions in the symbols and in the tree ---- *)
Definition folds (e : expr) : Prop := forall r, ~ clash (symbols e ++ r) ->
  fold_toks (symbols e ++ r) =
  match r with
  | TSlash :: TNum b :: r' => match div_last (fold e) b with Some f => ft f ++ fold_toks r' | None => ft (fold e) ++ fold_toks r end
  | _ => ft (fold e) ++ fold_toks r
  end.
Lemma plain_step t ts : match t with TNum _ | TCaret => False | _ => True end -> fold_toks (t :: ts) = FT t :: fold_toks ts.
Proof. destruct t; try contradiction; reflexivity. Qed.
Lemma folds_bin mk (a b : expr) op : match op with TNum _ | TCaret | TSlash => False | _ => True end ->
  folds a -> folds b ->
  (forall x y, ft (mk x y) = ft x ++ FT op :: ft y) -> (forall x y m, div_last (mk x y) m = option_map (mk x) (div_last y m)) ->
  forall r, ~ clash (symbols a ++ op :: symbols b ++ r) ->
  fold_toks (symbols a ++ op :: symbols b ++ r) =
  match r with
  | TSlash :: TNum c :: r' => match div_last (mk (fold a) (fold b)) c with Some f => ft f ++ fold_toks r' | None => ft (mk (fold a) (fold b)) ++ fold_toks r end
  | _ => ft (mk (fold a) (fold b)) ++ fold_toks r
  end.
Proof.
  intros O Ha Hb M D r NC. rewrite (Ha (op :: symbols b ++ r) NC). assert (NB : ~ clash (symbols b ++ r)).
  { intros X. apply NC. replace (symbols a ++ op :: symbols b ++ r) with ((symbols a ++ [op]) ++ symbols b ++ r) by (rewrite <- app_assoc; reflexivity). apply clash_pre; [exact X|left]. apply end_not. destruct op; try discriminate; contradiction. }
  assert (E : fold_toks (op :: symbols b ++ r) = FT op :: fold_toks (symbols b ++ r)) by (apply plain_step; destruct op; try exact I; contradiction).
  assert (E2 : match op :: symbols b ++ r with TSlash :: TNum b0 :: r' => match div_last (fold a) b0 with Some f => ft f ++ fold_toks r' | None => ft (fold a) ++ fold_toks (op :: symbols b ++ r) end | _ => ft (fold a) ++ fold_toks (op :: symbols b ++ r) end = ft (fold a) ++ fold_toks (op :: symbols b ++ r)) by (destruct op; try reflexivity; contradiction).
  rewrite E2, E, (Hb r NB). rewrite M. assert (A : forall w, (ft (fold a) ++ FT op :: ft (fold b)) ++ w = ft (fold a) ++ FT op :: ft (fold b) ++ w) by (intros w; rewrite <- app_assoc; reflexivity).
  destruct r as [|[] [|[] r]]; try (rewrite A; reflexivity). rewrite D. destruct (div_last (fold b) n) as [f|]; cbn [option_map]; [|rewrite A; reflexivity]. rewrite M, <- app_assoc. reflexivity.
Qed.
Lemma folds_sgn mk (b : expr) op : In op [TPlus; TMinus] -> folds b ->
  (forall y, ft (mk y) = FT op :: ft y) -> (forall y m, div_last (mk y) m = option_map mk (div_last y m)) ->
  forall r, ~ clash (op :: symbols b ++ r) ->
  fold_toks (op :: symbols b ++ r) =
  match r with
  | TSlash :: TNum c :: r' => match div_last (mk (fold b)) c with Some f => ft f ++ fold_toks r' | None => ft (mk (fold b)) ++ fold_toks r end
  | _ => ft (mk (fold b)) ++ fold_toks r
  end.
Proof.
  intros O Hb M D r NC. assert (NB : ~ clash (symbols b ++ r)).
  { intros X. apply NC. apply (clash_pre [op]); [exact X|left]. apply (end_not []). inl O; discriminate. }
  rewrite plain_step by (inl O; exact I). rewrite (Hb r NB), M. destruct r as [|[] [|[] r]]; try reflexivity. rewrite D. destruct (div_last (fold b) n) as [f|]; cbn [option_map]; [rewrite M|]; reflexivity.
Qed.
Lemma caret_step ts : begins_num ts = false -> fold_toks (TCaret :: ts) = FT TCaret :: fold_toks ts.
Proof. destruct ts as [|[] ts]; try reflexivity; discriminate. Qed.
Theorem fold_ok e : sum e -> folds e.
Proof.
  induction e as [n|x|a IH|a IHa b IHb|a IH|a IH|a IHa b IHb|a IHa b IHb|a IHa b IHb|a IHa b IHb|a IHa b IHb]; intros H; sinv H; intros r NC.
  - cbn [symbols toks app fold]. destruct r as [|[] [|[] r]]; reflexivity.
  - cbn [symbols toks app fold]. destruct r as [|[] [|[] r]]; reflexivity.
  - assert (E : symbols (Par a) ++ r = TL :: symbols a ++ TR :: r) by (cbn [symbols toks app]; rewrite <- app_assoc; reflexivity). rewrite E in *. rewrite plain_step by exact I.
    rewrite (IH H (TR :: r)). 2:{ intros X. apply NC. apply (clash_pre [TL]); [exact X|left]. apply (end_not []). discriminate. }
    cbn [fold ft]. rewrite plain_step by exact I. destruct r as [|[] [|[] r]]; cbn [div_last app]; rewrite <- ?app_assoc; reflexivity.
  - destruct H as [Ha Hb]. assert (E : symbols (Pow a b) ++ r = symbols a ++ TCaret :: symbols b ++ r) by (unfold symbols; cbn [toks]; rewrite <- app_assoc; reflexivity). rewrite E in *.
    rewrite (IHa (atom_sum _ Ha) _ NC). cbn [fold]. cbn [ft].
    assert (NB : (forall n, b <> Num n) -> ~ clash (symbols b ++ r)).
    { intros D X. apply NC. replace (symbols a ++ TCaret :: symbols b ++ r) with ((symbols a ++ [TCaret]) ++ symbols b ++ r) by (rewrite <- app_assoc; reflexivity). apply clash_pre; [exact X|right]. apply factor_first; [exact Hb|apply D]. }
    destruct b as [n|x|b0|b1 b2|b0|b0|b1 b2|b1 b2|b1 b2|b1 b2|b1 b2]; try (exfalso; clear - Hb; inv Hb; inv H; fail).
    + cbn [symbols toks app fold fold_toks ft]. assert (A : ft (fold a) ++ FT TCaret :: FT (TNum n) :: fold_toks r = (ft (fold a) ++ [FT TCaret; FT (TNum n)]) ++ fold_toks r) by (rewrite <- app_assoc; reflexivity). rewrite A. destruct r as [|[] [|[] r]]; reflexivity.
    + rewrite caret_step by reflexivity. rewrite (IHb (factor_sum _ Hb) r) by (apply NB; discriminate). cbn [fold div_last ft]. destruct r as [|[] [|[] r]]; rewrite <- app_assoc; reflexivity.
    + rewrite caret_step by reflexivity. rewrite (IHb (factor_sum _ Hb) r) by (apply NB; discriminate). cbn [fold div_last]. destruct r as [|[] [|[] r]]; rewrite <- app_assoc; reflexivity.
    + assert (X : fold_toks (TCaret :: symbols (Pow b1 b2) ++ r) = FT TCaret :: fold_toks (symbols (Pow b1 b2) ++ r)).
      { assert (S := factor_sum _ Hb). sinv S. destruct S as [A1 _]. inv A1; reflexivity. }
      rewrite X. rewrite (IHb (factor_sum _ Hb) r) by (apply NB; discriminate). change (fold (Pow b1 b2)) with (PPow (fold b1) (fold b2)).
      assert (Y : forall m, div_last (PPow (fold a) (PPow (fold b1) (fold b2))) m = option_map (PPow (fold a)) (div_last (PPow (fold b1) (fold b2)) m)) by reflexivity.
      destruct r as [|[] [|[] r]]; rewrite <- ?app_assoc; try reflexivity. rewrite Y. destruct (div_last (PPow (fold b1) (fold b2)) n); cbn [option_map ft]; repeat (rewrite <- app_assoc; cbn [app]); reflexivity.
    + rewrite caret_step by reflexivity. rewrite (IHb (factor_sum _ Hb) r) by (apply NB; discriminate). change (fold (Neg b0)) with (PNeg (fold b0)).
      assert (Y : forall m, div_last (PPow (fold a) (PNeg (fold b0))) m = option_map (PPow (fold a)) (div_last (PNeg (fold b0)) m)) by reflexivity.
      destruct r as [|[] [|[] r]]; rewrite <- ?app_assoc; try reflexivity. rewrite Y. destruct (div_last (PNeg (fold b0)) n); cbn [option_map ft]; repeat (rewrite <- app_assoc; cbn [app]); reflexivity.
    + rewrite caret_step by reflexivity. rewrite (IHb (factor_sum _ Hb) r) by (apply NB; discriminate). change (fold (Pos b0)) with (PPos (fold b0)).
      assert (Y : forall m, div_last (PPow (fold a) (PPos (fold b0))) m = option_map (PPow (fold a)) (div_last (PPos (fold b0)) m)) by reflexivity.
      destruct r as [|[] [|[] r]]; rewrite <- ?app_assoc; try reflexivity. rewrite Y. destruct (div_last (PPos (fold b0)) n); cbn [option_map ft]; repeat (rewrite <- app_assoc; cbn [app]); reflexivity.
  - apply (folds_sgn PNeg a TMinus); [cbn; tauto|apply IH, factor_sum, H|reflexivity|reflexivity|exact NC].
  - apply (folds_sgn PPos a TPlus); [cbn; tauto|apply IH, factor_sum, H|reflexivity|reflexivity|exact NC].
  - assert (E : symbols (Mul a b) ++ r = symbols a ++ TStar :: symbols b ++ r) by (unfold symbols; cbn [toks]; rewrite <- app_assoc; reflexivity). rewrite E in *.
    apply (folds_bin PMul a b TStar); [exact I|apply IHa, sum_term, H|apply IHb, factor_sum, H|reflexivity|reflexivity|exact NC].
  - assert (E : symbols (Jux a b) ++ r = symbols a ++ TStar :: symbols b ++ r) by (unfold symbols; cbn [toks]; rewrite <- app_assoc; reflexivity). rewrite E in *.
    apply (folds_bin PMul a b TStar); [exact I|apply IHa, sum_term, H|apply IHb, factor_sum, H|reflexivity|reflexivity|exact NC].
  - destruct H as [Ha Hb]. assert (E : symbols (Div a b) ++ r = symbols a ++ TSlash :: symbols b ++ r) by (unfold symbols; cbn [toks]; rewrite <- app_assoc; reflexivity). rewrite E in *.
    assert (NB : ~ clash (symbols b ++ r)).
    { intros X. apply NC. replace (symbols a ++ TSlash :: symbols b ++ r) with ((symbols a ++ [TSlash]) ++ symbols b ++ r) by (rewrite <- app_assoc; reflexivity). apply clash_pre; [exact X|left]. apply end_not. discriminate. }
    assert (S : forall w, fold_toks (TSlash :: w) = FT TSlash :: fold_toks w) by reflexivity.
    assert (G : fold (Div a b) = PDiv (fold a) (fold b) -> fold_toks (symbols a ++ TSlash :: symbols b ++ r) = ft (fold a) ++ fold_toks (TSlash :: symbols b ++ r) ->
      fold_toks (symbols a ++ TSlash :: symbols b ++ r) = match r with TSlash :: TNum c :: r' => match div_last (fold (Div a b)) c with Some f => ft f ++ fold_toks r' | None => ft (fold (Div a b)) ++ fold_toks r end | _ => ft (fold (Div a b)) ++ fold_toks r end).
    { intros E1 E2. rewrite E1, E2, S, (IHb (factor_sum _ Hb) r NB). cbn [ft]. destruct r as [|[] [|[] r]]; rewrite <- ?app_assoc; try reflexivity. cbn [div_last]. destruct (div_last (fold b) n); cbn [option_map ft]; repeat (rewrite <- app_assoc; cbn [app]); reflexivity. }
    assert (IA := IHa (sum_term _ Ha) (TSlash :: symbols b ++ r) NC).
    destruct (begins_num (symbols b)) eqn:BN.
    + destruct b as [n|x|b0|b1 b2|b0|b0|b1 b2|b1 b2|b1 b2|b1 b2|b1 b2]; try discriminate BN; try (exfalso; clear - Hb; inv Hb; inv H; fail).
      * cbn [symbols toks app] in IA. rewrite fold_div in *. destruct (div_last (fold a) n) as [f|] eqn:D.
        -- cbn [symbols toks app]. rewrite IA. destruct r as [|[] [|[] r]]; try reflexivity. rewrite (div_last_twice _ _ n0 _ D). reflexivity.
        -- apply G; [reflexivity|exact IA].
      * assert (S2 := factor_sum _ Hb). sinv S2. destruct S2 as [A1 _]. destruct A1 as [m Hm|x Hx|c Hc]; try discriminate BN. cbn [symbols toks app] in IA, NC.
        apply G; [reflexivity|]. destruct (div_last (fold a) m) as [f|] eqn:D; [|exact IA]. exfalso.
        destruct (open_last a m (sum_term _ Ha) ltac:(rewrite D; discriminate)) as (l & k & El & L). apply NC. unfold symbols in *. rewrite El, <- app_assoc. cbn [app]. apply clash_exp. exact L.
    + apply G.
      * rewrite fold_div. destruct b; try reflexivity. discriminate BN.
      * rewrite IA. destruct (symbols b) as [|[] w] eqn:W; try reflexivity; [|discriminate BN]. exfalso. exact (toks_nil _ _ W).
  - assert (E : symbols (Add a b) ++ r = symbols a ++ TPlus :: symbols b ++ r) by (unfold symbols; cbn [toks]; rewrite <- app_assoc; reflexivity). rewrite E in *.
    apply (folds_bin PAdd a b TPlus); [exact I|apply IHa, H|apply IHb, sum_term, H|reflexivity|reflexivity|exact NC].
  - assert (E : symbols (Sub a b) ++ r = symbols a ++ TMinus :: symbols b ++ r) by (unfold symbols; cbn [toks]; rewrite <- app_assoc; reflexivity). rewrite E in *.
    apply (folds_bin PSub a b TMinus); [exact I|apply IHa, H|apply IHb, sum_term, H|reflexivity|reflexivity|exact NC].
Qed.
(* ---- from the text to the tree ---- *)
Theorem parse_tree e : sum e -> ~ clash (symbols e) -> ast_parse (py_parse (written e)) = Ok (tree (fold e)).
Proof.
  intros H NC. unfold written. change (concat (map tok_text (toks [] e))) with (txt tok_text (toks [] e)). rewrite parse_stars by (try (apply toks_ok; [constructor|exact H]); apply adj_raw, H).
  rewrite tstar_symbols by exact H. assert (F : Forall tok_ok (symbols e)) by (apply toks_ok; [repeat constructor|exact H]). assert (A := adj_symbols e).
  rewrite pass_rat; [|exact F|exact A| |left; exact I].
  - change (concat (map ftxt (fold_toks (symbols e)))) with (ftext (fold_toks (symbols e))). rewrite no_block by exact F. unfold ast_parse. rewrite lex_fold by (try assumption; lia).
    assert (E := fold_ok e H []). rewrite app_nil_r in E. rewrite (E NC), app_nil_r. fold (N (fold e)). rewrite p_sum_ok; [reflexivity|]. apply fold_wf, H.
  - intros l a b r E. destruct (Z.lt_ge_cases a 10) as [L|L]; [exact L|]. exfalso. apply NC. rewrite E. apply clash_pow. exact L.
Qed.
