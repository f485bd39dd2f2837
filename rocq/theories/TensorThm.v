(* The wider evaluator agrees with that of Parse.v on expressions of numbers. *)
From Coq Require Import Ascii String.
From Coq Require Import List ZArith Bool Lia.
From Verif Require Import Base Fld Particle Phase Compute Str Masses MassesThm Parse ParseChars Text Tensor.
Import ListNotations.
Open Scope Z_scope.
Open Scope res_scope.

Lemma name_run s : run in_name s = name s \/ exists r, skipn (length (name s)) s = 1013 :: r.
Proof.
  induction s as [|c s IH]; [left; reflexivity|]. cbn [run name]. unfold in_name at 1. destruct (is_alnum c || (c =? 95)) eqn:E; cbn [orb].
  - destruct IH as [IH|[r IH]]; [left; rewrite IH; reflexivity|right; exists r; exact IH].
  - destruct (c =? 1013) eqn:E3; [|left; reflexivity]. apply Z.eqb_eq in E3. subst c. right. exists s. reflexivity.
Qed.
Lemma lex_eps n r : lex n (1013 :: r) = None. Proof. destruct n; reflexivity. Qed.
Definition small (t : ktok) : Prop := match t with KOp c => is_op c = true | _ => True end.
Lemma lex_wide n : forall s ts, lex n s = Some ts -> wlex n s = Some ts /\ Forall small ts.
Proof.
  induction n as [|n IH]; intros s ts E; [discriminate E|]. destruct s as [|c s]; [injection E as <-; split; [reflexivity|constructor]|]. cbn [lex wlex] in *.
  assert (T : forall (k : ktok) s', small k -> option_map (cons k) (lex n s') = Some ts -> option_map (cons k) (wlex n s') = Some ts /\ Forall small ts).
  { intros k s' Sk H. destruct (lex n s') as [ts'|] eqn:L; [|discriminate H]. injection H as <-. destruct (IH s' ts' L) as [E' F]. rewrite E'. split; [reflexivity|constructor; assumption]. }
  destruct (is_digit c) eqn:D.
  - destruct (literal_ok (digits (c :: s))); [|discriminate E]. apply T; [exact I|exact E].
  - unfold starts_name. destruct (is_letter c) eqn:L; cbn [orb].
    + destruct (name_run (c :: s)) as [R|[r R]]; [|rewrite R, lex_eps in E; discriminate E]. rewrite R. apply T; [exact I|exact E].
    + destruct (c =? 1013) eqn:E3; [apply Z.eqb_eq in E3; subst c; discriminate E|].
      destruct (c =? 39); [apply T; [exact I|exact E]|]. destruct (c =? 32) eqn:E32; [apply Z.eqb_eq in E32; subst c; cbn in E; discriminate E|].
      destruct (c =? 42) eqn:E42.
      * destruct s as [|d s']; [|destruct (d =? 42)].
        -- destruct (is_op c) eqn:Oc; [|discriminate E]. unfold is_wop. rewrite Oc. cbn [orb]. apply T; [exact Oc|exact E].
        -- apply T; [exact I|exact E].
        -- apply T; [apply Z.eqb_eq in E42; subst c; reflexivity|exact E].
      * destruct (is_op c) eqn:Oc; [|discriminate E]. unfold is_wop. rewrite Oc. cbn [orb]. apply T; [exact Oc|exact E].
Qed.
Fixpoint widen (a : ast) : wast :=
  match a with
  | Parse.ANum z => WNum z | AAdd a b => WBin BAdd (widen a) (widen b) | ASub a b => WBin BSub (widen a) (widen b)
  | AMul a b => WBin BMul (widen a) (widen b) | ADiv a b => WBin BDiv (widen a) (widen b) | APow a b => WBin BPow (widen a) (widen b)
  | ANeg a => WNeg (widen a) | APos a => WPos (widen a) | AoPs s => WoPs s | AFrac n d => WFrac n d
  end.
Lemma small_op c : is_op c = true -> c <> 64 /\ c <> 91. Proof. split; intros ->; discriminate. Qed.
Definition ok_at (p : list ktok -> option (ast * list ktok)) (w : list ktok -> option (wast * list ktok)) : Prop :=
  forall ts a r, Forall small ts -> p ts = Some (a, r) -> w ts = Some (widen a, r) /\ Forall small r.
Definition ok_loop (p : ast -> list ktok -> option (ast * list ktok)) (w : wast -> list ktok -> option (wast * list ktok)) : Prop :=
  forall x ts a r, Forall small ts -> p x ts = Some (a, r) -> w (widen x) ts = Some (widen a, r) /\ Forall small r.
Definition agree (n : nat) : Prop := forall m, (2 * n <= m)%nat ->
  ok_at (Parse.p_sum n) (w_sum m) /\ ok_loop (sum_loop n) (w_sums m) /\ ok_at (p_term n) (w_term m) /\ ok_loop (term_loop n) (w_terms m) /\
  ok_at (p_factor n) (w_factor m) /\ ok_at (p_power n) (w_power m) /\ ok_at (p_atom n) (w_atom m).
Lemma wide_parse n : agree n.
Proof.
  induction n as [|n IH]; intros m L; [repeat split; intros; discriminate|]. destruct m as [|m]; [lia|].
  assert (A := IH m ltac:(lia)). destruct A as (I1 & I2 & I3 & I4 & I5 & I6 & I7).
  split; [|split; [|split; [|split; [|split; [|split]]]]].
  - intros ts a r F E. cbn [Parse.p_sum w_sum] in *. destruct (p_term n ts) as [(x, r1)|] eqn:P; [|discriminate E]. destruct (I3 _ _ _ F P) as [-> F1]. exact (I2 _ _ _ _ F1 E).
  - intros x ts a r F E. cbn [sum_loop w_sums] in *. destruct ts as [|[z|w|w|c|] ts]; try (injection E as <- <-; split; [reflexivity|exact F]).
    inversion F as [|? ? Sc F']; subst. destruct (c =? 43); [|destruct (c =? 45)]; try (injection E as <- <-; split; [reflexivity|exact F]);
      (destruct (p_term n ts) as [(y, r1)|] eqn:P; [|discriminate E]; destruct (I3 _ _ _ F' P) as [-> F1]; exact (I2 _ _ _ _ F1 E)).
  - intros ts a r F E. cbn [p_term w_term] in *. destruct (p_factor n ts) as [(x, r1)|] eqn:P; [|discriminate E]. destruct (I5 _ _ _ F P) as [-> F1]. exact (I4 _ _ _ _ F1 E).
  - intros x ts a r F E. cbn [term_loop w_terms] in *. destruct ts as [|[z|w|w|c|] ts]; try (injection E as <- <-; split; [reflexivity|exact F]).
    inversion F as [|? ? Sc F']; subst. destruct (small_op c Sc) as [N64 _]. destruct (c =? 42); [|destruct (c =? 47)];
      try (destruct (p_factor n ts) as [(y, r1)|] eqn:P; [|discriminate E]; destruct (I5 _ _ _ F' P) as [-> F1]; exact (I4 _ _ _ _ F1 E)).
    rewrite (proj2 (Z.eqb_neq _ _) N64). injection E as <- <-. split; [reflexivity|exact F].
  - intros ts a r F E. cbn [p_factor w_factor] in *. destruct ts as [|[z|w|w|c|] ts]; try exact (I6 _ _ _ F E).
    inversion F as [|? ? Sc F']; subst. destruct (c =? 43); [|destruct (c =? 45); [|exact (I6 _ _ _ F E)]];
      (destruct (p_factor n ts) as [(y, r1)|] eqn:P; [|discriminate E]; destruct (I5 _ _ _ F' P) as [-> F1]; injection E as <- <-; split; [reflexivity|exact F1]).
  - intros ts a r F E. cbn [p_power w_power] in *. destruct (p_atom n ts) as [(x, r1)|] eqn:P; [|discriminate E].
    assert (Q : w_primary m ts = Some (widen x, r1) /\ Forall small r1).
    { destruct n as [|n]; [discriminate P|]. destruct m as [|m]; [lia|]. assert (A7 : ok_at (p_atom (S n)) (w_atom m)) by (apply (IH m); lia). destruct (A7 _ _ _ F P) as [W F1]. cbn [w_primary]. rewrite W. split; [|exact F1].
      destruct m as [|m]; [lia|]. cbn [w_trailers]. destruct r1 as [|[z|w|w|c|] r1]; try reflexivity. inversion F1 as [|? ? Sc _]; subst. destruct (small_op c Sc) as [_ N91]. rewrite (proj2 (Z.eqb_neq _ _) N91). reflexivity. }
    destruct Q as [-> F1]. destruct r1 as [|[z|w|w|c|] r1]; try (injection E as <- <-; split; [reflexivity|exact F1]).
    inversion F1 as [|? ? _ F2]; subst. destruct (p_factor n r1) as [(y, r2)|] eqn:P2; [|discriminate E]. destruct (I5 _ _ _ F2 P2) as [-> F3]. injection E as <- <-. split; [reflexivity|exact F3].
  - intros ts a r F E. cbn [p_atom w_atom] in *. destruct ts as [|[z|w|w|c|] ts]; try discriminate E.
    + injection E as <- <-. inversion F; subst. split; [reflexivity|assumption].
    + inversion F as [|? ? _ F']; subst. destruct ts as [|[z|w1|w1|l|] ts]; try discriminate E. inversion F' as [|? ? _ F2]; subst. destruct ts as [|[z|w1|arg|l1|] ts]; try discriminate E.
      * inversion F2 as [|? ? _ F3]; subst. destruct ts as [|[z1|w1|w1|k|] ts]; try discriminate E. inversion F3 as [|? ? _ F4]; subst. destruct ts as [|[d|w1|w1|k1|] ts]; try discriminate E. inversion F4 as [|? ? _ F5]; subst.
        destruct ts as [|[z1|w1|w1|c|] ts]; try discriminate E. inversion F5 as [|? ? _ F6]; subst. destruct (str_eqb w (lit "Fraction")) eqn:Ew; [|discriminate E]. destruct (str_eqb_spec w (lit "Fraction")) as [-> |]; [|discriminate Ew].
        change (str_eqb (lit "Fraction") (lit "oPs")) with false. cbv iota. cbn [andb] in E. destruct ((l =? 40) && (k =? 44) && (c =? 41)); [|discriminate E]. injection E as <- <-. split; [reflexivity|exact F6].
      * inversion F2 as [|? ? _ F3]; subst. destruct ts as [|[z1|w1|w1|c|] ts]; try discriminate E. inversion F3 as [|? ? _ F4]; subst. destruct (str_eqb w (lit "oPs")) eqn:Ew; [|discriminate E]. cbn [andb] in E.
        destruct ((l =? 40) && (c =? 41)); [|discriminate E]. injection E as <- <-. split; [reflexivity|exact F4].
    + inversion F as [|? ? _ F']; subst. destruct (c =? 40); [|discriminate E]. destruct (Parse.p_sum n ts) as [(y, r1)|] eqn:P; [|discriminate E]. destruct (I1 _ _ _ F' P) as [-> F1].
      destruct r1 as [|[z|w|w|k|] r1]; try discriminate E. inversion F1 as [|? ? _ F2]; subst. destruct (k =? 41); [|discriminate E]. injection E as <- <-. split; [reflexivity|exact F2].
Qed.
Lemma parse_wide s a : ast_parse s = Ok a -> wast_parse s = Ok (widen a).
Proof.
  unfold ast_parse, wast_parse. intros E. destruct (lex _ s) as [ts|] eqn:L; [|discriminate E]. destruct (lex_wide _ _ _ L) as [-> F].
  destruct (Parse.p_sum _ ts) as [(x, r)|] eqn:P; [|discriminate E]. destruct r; [|discriminate E]. injection E as ->.
  destruct (proj1 (wide_parse (6 * length ts + 6)%nat (12 * length ts + 12)%nat ltac:(lia)) _ _ _ F P) as [-> _]. reflexivity.
Qed.

Section Wide.
Context {K : Fld}.
Implicit Types (s : ps K).
Lemma eval_wide (o : pystr -> result K) (w : pystr -> result (wval K)) (Ho : forall t x, o t = Ok x -> w t = Ok (XNum (VElt x))) a :
  forall v, eval_node o a = Ok v -> weval w (widen a) = Ok (XNum v).
Proof.
  assert (B : forall (f : value K -> value K -> result (value K)) ra rb (wa wb : result (wval K)) v,
    (forall v, ra = Ok v -> wa = Ok (XNum v)) -> (forall v, rb = Ok v -> wb = Ok (XNum v)) ->
    (x <-? ra ;; y <-? rb ;; f x y) = Ok v -> (x <-? wa ;; y <-? wb ;; entrywise f x y) = Ok (XNum v)).
  { intros f ra rb wa wb v Ha Hb E. destruct ra as [x|]; [|discriminate E]. rewrite (Ha _ eq_refl). destruct rb as [y|]; [|discriminate E]. rewrite (Hb _ eq_refl). cbn in *. rewrite E. reflexivity. }
  induction a; intros v E; cbn [eval_node widen weval binop] in *; try (eapply B; eassumption).
  - injection E as <-. reflexivity.
  - destruct (eval_node o a) as [x|]; [|discriminate E]. rewrite (IHa _ eq_refl). injection E as <-. reflexivity.
  - exact (IHa v E).
  - destruct (o arg) as [x|] eqn:Eo; [|discriminate E]. rewrite (Ho _ _ Eo). injection E as <-. reflexivity.
  - destruct (d =? 0); [discriminate E|]. injection E as <-. reflexivity.
Qed.
Definition of_answer (a : answer K) : wval K := match a with AVal v => of_val v | ANum v => XNum v end.
Lemma wide_same fuel s A : forall t a, compute_text fuel s A t = Ok a -> compute_wide fuel s A t = Ok (of_answer a).
Proof.
  induction fuel as [|f IH]; intros t a E; [discriminate E|]. cbn [compute_text compute_wide] in *. destruct (unbold t) as [t'|]; [|discriminate E]. cbn [rbind] in *.
  destruct (classify t') as [e|x0| |] eqn:Ec.
  - destruct (compute s e) as [v|]; [|discriminate E]. injection E as <-. reflexivity.
  - discriminate E.
  - destruct (dict_get t' A) as [[x|t'']|]; [injection E as <-; reflexivity|exact (IH _ _ E)|discriminate E].
  - unfold py_eval in E. unfold weval_text. destruct (ast_parse (py_parse t)) as [x|] eqn:P; [|discriminate E]. rewrite (parse_wide _ _ P). cbn [rbind] in *.
    destruct (eval_node _ x) as [v|] eqn:Ev; [|discriminate E]. injection E as <-.
    rewrite (eval_wide (fun arg => as_element (compute_text f s A arg)) (compute_wide f s A) ltac:(intros t0 x0 E0; unfold as_element in E0; destruct (compute_text f s A t0) as [[[y|y|y|y]|[y|y|y|]]|] eqn:C; try discriminate E0; injection E0 as <-; rewrite (IH _ _ C); reflexivity) _ _ Ev). reflexivity.
Qed.
End Wide.
