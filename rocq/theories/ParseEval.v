(* Proofs about the values of expressions. *)
From Coq Require Import Ascii String.
From Coq Require Import List ZArith Bool QArith Qpower Lia Field.
From Coq Require InitialRing.
From Verif Require Import Base Fld Str Parse ParseSpec ParseStars ParseLex ParseTree ParseFold.
Import ListNotations.
Open Scope Z_scope.

Section Eval.
Context {K : Fld}.
Add Field Kpe1 : (fth K).
Notation kz := (@kz K).
Lemma kz_morph : Ring_theory.ring_morph (@f0 K) f1 fadd fmul fsub fopp (@eq K) 0%Z 1%Z Z.add Z.mul Z.sub Z.opp Zeq_bool kz.
Proof. apply InitialRing.gen_phiZ_morph; [apply Eqsth|apply Eq_ext|exact (F_R (fth K))]. Qed.
Lemma kz_0 : kz 0 = f0. Proof. apply kz_morph. Qed.
Lemma kz_1 : kz 1 = f1. Proof. apply kz_morph. Qed.
Lemma kz_add a b : kz (a + b) = (kz a + kz b)%fld. Proof. apply kz_morph. Qed.
Lemma kz_sub a b : kz (a - b) = (kz a - kz b)%fld. Proof. apply kz_morph. Qed.
Lemma kz_mul a b : kz (a * b) = (kz a * kz b)%fld. Proof. apply kz_morph. Qed.
Lemma kz_opp a : kz (- a) = (- kz a)%fld. Proof. apply kz_morph. Qed.
Lemma kz_pos_mul p q : kz (Zpos (p * q)) = (kz (Zpos p) * kz (Zpos q))%fld. Proof. rewrite <- kz_mul. reflexivity. Qed.
Lemma kz_nz a : kz a <> f0 -> a <> 0. Proof. intros H ->. apply H, kz_0. Qed.
Lemma mul_nz (x y : K) : x <> f0 -> y <> f0 -> (x * y <> f0)%fld.
Proof. intros Hx Hy E. apply Hx. replace x with ((x * y) / y)%fld by (field; exact Hy). rewrite E. field. exact Hy. Qed.
Lemma mul_nz_l (x y : K) : (x * y <> f0)%fld -> x <> f0. Proof. intros H ->. apply H. ring. Qed.
Lemma mul_nz_r (x y : K) : (x * y <> f0)%fld -> y <> f0. Proof. intros H ->. apply H. ring. Qed.
Lemma divE_ok (x y v : K) : divE x y = Ok v <-> y <> f0 /\ v = (x / y)%fld.
Proof.
  unfold divE. destruct (feqb y f0) eqn:E.
  - apply (feqb_ok K) in E. split; [discriminate|intros [H _]; contradiction].
  - assert (y <> f0) by (intros X; apply (feqb_ok K) in X; congruence). split; [intros X; injection X as <-; auto|intros [_ ->]; reflexivity].
Qed.
Lemma over_ok (x y v : K) : over x y = Some v <-> y <> f0 /\ v = (x / y)%fld.
Proof.
  unfold over. destruct (feqb y f0) eqn:E.
  - apply (feqb_ok K) in E. split; [discriminate|intros [H _]; contradiction].
  - assert (y <> f0) by (intros X; apply (feqb_ok K) in X; congruence). split; [intros X; injection X as <-; auto|intros [_ ->]; reflexivity].
Qed.
(* ---- fractions in the field ---- *)
Definition den_ok (q : Q) : Prop := kz (Zpos (Qden q)) <> f0.
Definition qk (q : Q) : K := (kz (Qnum q) / kz (Zpos (Qden q)))%fld.
Lemma Qred_den q : exists g, Zpos (Qden q) = g * Zpos (Qden (Qred q)) /\ Qnum q = g * Qnum (Qred q).
Proof.
  destruct q as [n d]. unfold Qred. assert (H := Z.ggcd_correct_divisors n (Zpos d)). assert (G := Z.ggcd_gcd n (Zpos d)). destruct (Z.ggcd n (Zpos d)) as [g [a b]]. cbn [snd fst] in *. destruct H as [H1 H2].
  exists g. cbn [Qnum Qden]. assert (P : 0 <= g) by (rewrite G; apply Z.gcd_nonneg). assert (0 < b) by nia. rewrite Z2Pos.id by assumption. auto.
Qed.
Lemma qk_red q : den_ok q -> den_ok (Qred q) /\ qk (Qred q) = qk q.
Proof.
  intros D. destruct (Qred_den q) as (g & E1 & E2). unfold den_ok, qk in *. rewrite E1, kz_mul in D. assert (D1 := mul_nz_l _ _ D). assert (D2 := mul_nz_r _ _ D). split; [exact D2|]. rewrite E1, E2, !kz_mul. field. auto.
Qed.
Lemma frac_eq q q' : q == q' -> frac (K := K) q = frac q'. Proof. intros H. unfold frac. f_equal. apply Qred_complete, H. Qed.
Lemma to_K_frac q : to_K (VFrac (K := K) q) = divE (kz (Qnum q)) (kz (Zpos (Qden q))). Proof. reflexivity. Qed.
Definition nonint (w : value K) : Prop := match w with VFrac _ | VElt _ => True | _ => False end.
Definition good (w : value K) (v : K) : Prop := to_K w = Ok v.
Lemma good_frac q : den_ok q -> good (frac q) (qk q).
Proof. intros D. destruct (qk_red q D) as [D' E]. unfold good, frac. rewrite to_K_frac. apply divE_ok. split; [exact D'|]. rewrite <- E. reflexivity. Qed.
Lemma good_toQ w v : good w v -> match w with VElt x => x = v | VFloat => False | _ => den_ok (to_Q w) /\ v = qk (to_Q w) end.
Proof.
  intros G. unfold good in G. destruct w as [z|q|x|]; cbn [to_K to_Q] in *.
  - injection G as <-. unfold den_ok, qk, inject_Z. cbn [Qnum Qden]. assert (E := kz_1). change (kz 1) with (kz (Zpos 1)) in E. rewrite E. split; [apply (F_1_neq_0 (fth K))|]. field. apply (F_1_neq_0 (fth K)).
  - apply divE_ok in G. exact G.
  - injection G as ->. reflexivity.
  - discriminate G.
Qed.
Lemma lift2_good (op : K -> K -> K) fz fq fk w1 w2 v1 v2 :
  good w1 v1 -> good w2 v2 -> nonint w1 \/ nonint w2 ->
  (forall q1 q2, den_ok q1 -> den_ok q2 -> v1 = qk q1 -> v2 = qk q2 -> exists q, fq q1 q2 = Ok (frac q) /\ den_ok q /\ qk q = op v1 v2) ->
  fk v1 v2 = Ok (op v1 v2) ->
  exists w, lift2 fz fq fk w1 w2 = Ok w /\ good w (op v1 v2) /\ nonint w.
Proof.
  intros G1 G2 NI HQ HK. assert (T1 := good_toQ _ _ G1). assert (T2 := good_toQ _ _ G2).
  destruct w1 as [z1|q1|x1|], w2 as [z2|q2|x2|]; try contradiction; cbn [lift2] in *;
    try (destruct NI as [X|X]; contradiction);
    try (destruct T1 as [D1 E1], T2 as [D2 E2]; destruct (HQ _ _ D1 D2 E1 E2) as (q & -> & D & E); exists (frac q); split; [reflexivity|]; split; [rewrite <- E; apply good_frac, D|exact I]);
    unfold good in G1, G2; rewrite ?G1, ?G2; cbn [rbind]; subst; rewrite HK; cbn [rmap]; eexists; (split; [reflexivity|]); split; reflexivity || exact I.
Qed.
Lemma add_good w1 w2 v1 v2 : good w1 v1 -> good w2 v2 -> nonint w1 \/ nonint w2 -> exists w, v_add w1 w2 = Ok w /\ good w (v1 + v2)%fld /\ nonint w.
Proof.
  intros G1 G2 NI. apply (lift2_good (fun a b => (a + b)%fld)); try assumption; [|reflexivity]. intros q1 q2 D1 D2 -> ->. exists (q1 + q2)%Q. split; [reflexivity|].
  unfold den_ok, qk, Qplus in *. cbn [Qnum Qden]. rewrite kz_pos_mul, kz_add, !kz_mul. split; [apply mul_nz; assumption|]. field. auto.
Qed.
Lemma sub_good w1 w2 v1 v2 : good w1 v1 -> good w2 v2 -> nonint w1 \/ nonint w2 -> exists w, v_sub w1 w2 = Ok w /\ good w (v1 - v2)%fld /\ nonint w.
Proof.
  intros G1 G2 NI. apply (lift2_good (fun a b => (a - b)%fld)); try assumption; [|reflexivity]. intros q1 q2 D1 D2 -> ->. exists (q1 - q2)%Q. split; [reflexivity|].
  unfold den_ok, qk, Qminus, Qplus, Qopp in *. cbn [Qnum Qden]. rewrite kz_pos_mul, kz_add, !kz_mul, kz_opp. split; [apply mul_nz; assumption|]. field. auto.
Qed.
Lemma mul_good w1 w2 v1 v2 : good w1 v1 -> good w2 v2 -> nonint w1 \/ nonint w2 -> exists w, v_mul w1 w2 = Ok w /\ good w (v1 * v2)%fld /\ nonint w.
Proof.
  intros G1 G2 NI. apply (lift2_good (fun a b => (a * b)%fld)); try assumption; [|reflexivity]. intros q1 q2 D1 D2 -> ->. exists (q1 * q2)%Q. split; [reflexivity|].
  unfold den_ok, qk, Qmult in *. cbn [Qnum Qden]. rewrite kz_pos_mul, !kz_mul. split; [apply mul_nz; assumption|]. field. auto.
Qed.
Lemma qk_nz q : den_ok q -> qk q <> f0 -> kz (Qnum q) <> f0.
Proof. intros D H E. apply H. unfold qk. rewrite E. field. exact D. Qed.
Lemma inv_ok_q q : den_ok q -> qk q <> f0 -> den_ok (/ q) /\ qk (/ q) = (f1 / qk q)%fld.
Proof.
  intros D H. assert (Z := qk_nz q D H). unfold den_ok, qk, Qinv in *. destruct q as [[|p|p] d]; cbn [Qnum Qden] in *.
  - exfalso. apply Z, kz_0.
  - split; [exact Z|]. field. auto.
  - change (kz (Zneg p)) with (kz (- Zpos p)) in *. change (kz (Zneg d)) with (kz (- Zpos d)). rewrite !kz_opp in *. assert (kz (Zpos p) <> f0) by (intros X; apply Z; rewrite X; ring). split; [assumption|]. field. auto.
Qed.
Lemma Qeq_zero q : qk q <> f0 -> den_ok q -> Qeq_bool q 0 = false.
Proof.
  intros H D. destruct (Qeq_bool q 0) eqn:E; [|reflexivity]. exfalso. apply Qeq_bool_iff in E. unfold Qeq in E. cbn [Qnum Qden] in E. rewrite Z.mul_1_r, Z.mul_0_l in E. apply (qk_nz q D H). rewrite E. apply kz_0.
Qed.
Lemma div_good w1 w2 v1 v2 : good w1 v1 -> good w2 v2 -> nonint w1 \/ nonint w2 -> v2 <> f0 -> exists w, v_div w1 w2 = Ok w /\ good w (v1 / v2)%fld /\ nonint w.
Proof.
  intros G1 G2 NI NZ. apply (lift2_good (fun a b => (a / b)%fld)); try assumption; [|apply divE_ok; auto]. intros q1 q2 D1 D2 -> ->. cbv beta. rewrite Qeq_zero by assumption. exists (q1 / q2)%Q. split; [reflexivity|].
  destruct (inv_ok_q q2 D2 NZ) as [D3 E3]. unfold Qdiv, Qmult. unfold den_ok in *. cbn [Qnum Qden]. rewrite kz_pos_mul. split; [apply mul_nz; assumption|].
  transitivity (qk q1 * qk (/ q2))%fld; [unfold qk; cbn [Qnum Qden]; rewrite kz_pos_mul, kz_mul; field; auto|]. rewrite E3. unfold qk at 1 3. field. auto.
Qed.
Lemma neg_good w v : good w v -> good (v_neg w) (- v)%fld /\ (nonint w -> nonint (v_neg w)).
Proof.
  unfold good. destruct w as [z|q|x|]; cbn [to_K v_neg nonint]; intros G.
  - injection G as <-. rewrite kz_opp. auto.
  - apply divE_ok in G. destruct G as [D ->]. split; [|auto]. apply divE_ok. cbn [Qopp Qnum Qden]. split; [exact D|]. rewrite kz_opp. field. exact D.
  - injection G as ->. auto.
  - discriminate G.
Qed.
(* ---- powers ---- *)
Lemma times_kpow (x : K) n : times x n = kpow x n. Proof. induction n; cbn; congruence. Qed.
Fixpoint qpow (q : Q) (n : nat) : Q := match n with O => 1 | S n' => q * qpow q n' end.
Lemma qpow_ok q n : Qpower q (Z.of_nat n) == qpow q n.
Proof.
  induction n; [reflexivity|]. rewrite Nat2Z.inj_succ. unfold Z.succ. rewrite Z.add_comm. rewrite Qpower_plus' by lia. cbn [qpow]. rewrite IHn. apply Qmult_comp; [|reflexivity]. cbn. reflexivity.
Qed.
Lemma qk_pow q n : den_ok q -> den_ok (qpow q n) /\ qk (qpow q n) = kpow (qk q) n.
Proof.
  intros D. induction n as [|n [IH1 IH2]]; cbn [qpow kpow].
  - unfold den_ok, qk. cbn [Qnum Qden]. change (kz (Zpos 1)) with (kz 1). rewrite kz_1. split; [apply (F_1_neq_0 (fth K))|]. field. apply (F_1_neq_0 (fth K)).
  - rewrite <- IH2. unfold den_ok, qk, Qmult in *. cbn [Qnum Qden]. rewrite kz_pos_mul, kz_mul. split; [apply mul_nz; assumption|]. field. auto.
Qed.
Lemma pow_good w v n v' : nonint w -> good w v -> to_the v n = Some v' -> exists w', v_pow w (VInt n) = Ok w' /\ good w' v' /\ nonint w'.
Proof.
  intros NI G T. assert (TQ := good_toQ _ _ G). unfold to_the in T. destruct w as [z|q|x|]; try contradiction; cbn [v_pow to_Q] in *.
  - destruct TQ as [D ->]. destruct (Z.ltb_spec n 0) as [L|L]; cbn [andb].
    + apply over_ok in T. destruct T as [NZ ->]. rewrite times_kpow in *. set (k := Z.to_nat (- n)) in *. assert (Ek : n = - Z.of_nat k) by (unfold k; lia). destruct (qk_pow q k D) as [Dp Ep].
      rewrite <- Ep in NZ |- *. assert (QN : qk q <> f0). { intros X. apply NZ. rewrite Ep, X. destruct k as [|k']; [lia|]. cbn. ring. }
      rewrite Qeq_zero by assumption. destruct (inv_ok_q (qpow q k) Dp NZ) as [Di Ei]. exists (frac (Qpower q n)). split; [reflexivity|]. split; [|exact I].
      rewrite (frac_eq (Qpower q n) (/ qpow q k)); [rewrite <- Ei; apply good_frac, Di|]. rewrite <- qpow_ok. rewrite Ek. destruct k as [|k']; [lia|]. cbn [Z.of_nat Z.opp Qpower]. reflexivity.
    + injection T as <-. rewrite times_kpow. exists (frac (Qpower q n)). split; [reflexivity|]. split; [|exact I]. destruct (qk_pow q (Z.to_nat n) D) as [Dp Ep]. rewrite <- Ep.
      rewrite (frac_eq (Qpower q n) (qpow q (Z.to_nat n))); [apply good_frac, Dp|]. rewrite <- qpow_ok, Z2Nat.id by exact L. reflexivity.
  - subst x. unfold k_pow. rewrite <- !times_kpow. destruct (n <? 0).
    + apply over_ok in T. destruct T as [NZ ->]. rewrite (proj2 (divE_ok f1 (times v (Z.to_nat (- n))) _) (conj NZ eq_refl)). eexists. split; [reflexivity|]. split; [reflexivity|exact I].
    + injection T as <-. eexists. split; [reflexivity|]. split; [reflexivity|exact I].
Qed.
Lemma kz_pow a n : 0 <= n -> kz (a ^ n) = times (kz a) (Z.to_nat n).
Proof.
  intros H. rewrite <- (Z2Nat.id n H) at 1. induction (Z.to_nat n) as [|k IH]; [apply kz_1|]. rewrite Nat2Z.inj_succ, Z.pow_succ_r by lia. rewrite kz_mul, IH. reflexivity.
Qed.
(* ---- whole numbers ---- *)
Variable oPs : pystr -> result K.
Definition invariant (a : inv) : option K := match oPs (inv_text a) with Ok x => Some x | Err _ => None end.
Notation ev := (eval_node oPs).
Notation val := (value_of invariant).
Lemma lift_opt_some {A B} (f : A -> A -> option B) x y z : lift_opt f x y = Some z -> exists a b, x = Some a /\ y = Some b /\ f a b = Some z.
Proof. destruct x, y; try discriminate. eauto. Qed.
Lemma int_eval e : forall z, int_value e = Some z -> ev (tree (fold e)) = Ok (VInt z).
Proof.
  induction e as [n|x|a IH|a IHa b IHb|a IH|a IH|a IHa b IHb|a IHa b IHb|a IHa b IHb|a IHa b IHb|a IHa b IHb]; intros z H; cbn [int_value] in H; try discriminate H.
  - injection H as <-. reflexivity.
  - apply IH, H.
  - apply lift_opt_some in H. destruct H as (u & k & Eu & Ek & E). cbn [fold tree eval_node]. rewrite (IHa u Eu), (IHb k Ek). cbn [rbind v_pow]. destruct (k <? 0); [discriminate E|]. injection E as <-. reflexivity.
  - destruct (int_value a) as [u|] eqn:Eu; [|discriminate H]. injection H as <-. cbn [fold tree eval_node]. rewrite (IH u eq_refl). reflexivity.
  - apply IH, H.
  - apply lift_opt_some in H. destruct H as (u & k & Eu & Ek & E). injection E as <-. cbn [fold tree eval_node]. rewrite (IHa u Eu), (IHb k Ek). reflexivity.
  - apply lift_opt_some in H. destruct H as (u & k & Eu & Ek & E). injection E as <-. cbn [fold tree eval_node]. rewrite (IHa u Eu), (IHb k Ek). reflexivity.
  - apply lift_opt_some in H. destruct H as (u & k & Eu & Ek & E). injection E as <-. cbn [fold tree eval_node]. rewrite (IHa u Eu), (IHb k Ek). reflexivity.
  - apply lift_opt_some in H. destruct H as (u & k & Eu & Ek & E). injection E as <-. cbn [fold tree eval_node]. rewrite (IHa u Eu), (IHb k Ek). reflexivity.
Qed.
Lemma int_val e : forall z, int_value e = Some z -> val e = Some (kz z).
Proof.
  induction e as [n|x|a IH|a IHa b IHb|a IH|a IH|a IHa b IHb|a IHa b IHb|a IHa b IHb|a IHa b IHb|a IHa b IHb]; intros z H; cbn [int_value] in H; try discriminate H; cbn [value_of].
  - injection H as <-. reflexivity.
  - apply IH, H.
  - apply lift_opt_some in H. destruct H as (u & k & Eu & Ek & E). rewrite (IHa u Eu), Ek. unfold to_the. destruct (Z.ltb_spec k 0) as [L|L]; [discriminate E|]. injection E as <-. rewrite kz_pow by exact L. reflexivity.
  - destruct (int_value a) as [u|] eqn:Eu; [|discriminate H]. injection H as <-. rewrite (IH u eq_refl). cbn [option_map]. rewrite kz_opp. reflexivity.
  - apply IH, H.
  - apply lift_opt_some in H. destruct H as (u & k & Eu & Ek & E). injection E as <-. rewrite (IHa u Eu), (IHb k Ek). cbn [lift_opt]. rewrite kz_mul. reflexivity.
  - apply lift_opt_some in H. destruct H as (u & k & Eu & Ek & E). injection E as <-. rewrite (IHa u Eu), (IHb k Ek). cbn [lift_opt]. rewrite kz_mul. reflexivity.
  - apply lift_opt_some in H. destruct H as (u & k & Eu & Ek & E). injection E as <-. rewrite (IHa u Eu), (IHb k Ek). cbn [lift_opt]. rewrite kz_add. reflexivity.
  - apply lift_opt_some in H. destruct H as (u & k & Eu & Ek & E). injection E as <-. rewrite (IHa u Eu), (IHb k Ek). cbn [lift_opt]. rewrite kz_sub. reflexivity.
Qed.
Lemma int_defined e : integral e = true -> exact e -> exists z, int_value e = Some z.
Proof.
  induction e as [n|x|a IH|a IHa b IHb|a IH|a IH|a IHa b IHb|a IHa b IHb|a IHa b IHb|a IHa b IHb|a IHa b IHb]; intros I X; cbn [integral exact int_value] in *; try discriminate I; try (apply andb_true_iff in I; destruct I as [I1 I2]).
  - eauto.
  - auto.
  - destruct X as (X1 & X2 & X3). destruct (IHa I1 X1) as (u & ->), (IHb I2 X2) as (k & Ek). rewrite Ek. cbn [lift_opt]. specialize (X3 I1 k Ek). destruct (Z.ltb_spec k 0); [lia|eauto].
  - destruct (IH I X) as (u & ->). cbn. eauto.
  - auto.
  - destruct (IHa I1 (proj1 X)) as (u & ->), (IHb I2 (proj2 X)) as (k & ->). cbn. eauto.
  - destruct (IHa I1 (proj1 X)) as (u & ->), (IHb I2 (proj2 X)) as (k & ->). cbn. eauto.
  - destruct (IHa I1 (proj1 X)) as (u & ->), (IHb I2 (proj2 X)) as (k & ->). cbn. eauto.
  - destruct (IHa I1 (proj1 X)) as (u & ->), (IHb I2 (proj2 X)) as (k & ->). cbn. eauto.
Qed.
(* ---- all expressions ---- *)
Definition holds (e : expr) : Prop := sum e -> exact e -> ~ clash (symbols e) -> forall v, val e = Some v ->
  exists w, ev (tree (fold e)) = Ok w /\ good w v /\ (integral e = false -> nonint w).
Definition holds_over (e : expr) : Prop := term e -> exact e -> forall m, ~ clash (symbols e ++ [TSlash; TNum m]) -> forall v, val e = Some v -> kz m <> f0 ->
  forall f, div_last (fold e) m = Some f -> exists w, ev (tree f) = Ok w /\ good w (v / kz m)%fld /\ nonint w.
Lemma int_holds e : integral e = true -> exact e -> forall v, val e = Some v -> exists w, ev (tree (fold e)) = Ok w /\ good w v /\ (integral e = false -> nonint w).
Proof.
  intros I X v V. destruct (int_defined e I X) as (z & Z). exists (VInt z). split; [apply int_eval, Z|]. split; [|congruence]. rewrite (int_val e z Z) in V. injection V as <-. reflexivity.
Qed.
Lemma no_l (a b : list tok) : ~ clash (a ++ b) -> ~ clash a. Proof. intros H X. apply H, clash_suf, X. Qed.
Lemma no_r (a : list tok) op b : op <> TCaret -> ~ clash (a ++ op :: b) -> ~ clash b.
Proof. intros N H X. apply H. replace (a ++ op :: b) with ((a ++ [op]) ++ b) by (rewrite <- app_assoc; reflexivity). apply clash_pre; [exact X|left]. apply end_not, N. Qed.
Lemma nonint_of e w : (integral e = false -> nonint w) -> integral e = false -> nonint w. Proof. auto. Qed.
Lemma bin_holds (mk : ast -> ast -> ast) vop (op : K -> K -> K) a b va vb (P : Prop) :
  (forall x y, ev (mk x y) = rbind (ev x) (fun u => rbind (ev y) (fun w => vop u w))) ->
  (forall w1 w2 v1 v2, good w1 v1 -> good w2 v2 -> nonint w1 \/ nonint w2 -> exists w, vop w1 w2 = Ok w /\ good w (op v1 v2) /\ nonint w) ->
  integral a && integral b = false ->
  (exists w, ev (tree (fold a)) = Ok w /\ good w va /\ (integral a = false -> nonint w)) ->
  (exists w, ev (tree (fold b)) = Ok w /\ good w vb /\ (integral b = false -> nonint w)) ->
  exists w, ev (mk (tree (fold a)) (tree (fold b))) = Ok w /\ good w (op va vb) /\ (P -> nonint w).
Proof.
  intros M G I (wa & Ea & Ga & Na) (wb & Eb & Gb & Nb). rewrite M, Ea, Eb. cbn [rbind]. destruct (G wa wb va vb Ga Gb) as (w & E & Gw & Nw).
  - apply andb_false_iff in I. destruct I; [left|right]; auto.
  - exists w. auto.
Qed.
Theorem all_hold e : holds e /\ holds_over e.
Proof.
  induction e as [n|x|a IH|a IHa b IHb|a IH|a IH|a IHa b IHb|a IHa b IHb|a IHa b IHb|a IHa b IHb|a IHa b IHb]; (split; [intros S X NC v V|intros T X m NC v V NZ f D]).
  - apply int_holds; auto.
  - cbn [fold div_last] in D. injection D as <-. cbn [tree eval_node]. rewrite (proj2 (Z.eqb_neq m 0)) by (apply kz_nz, NZ). exists (frac (inject_Z n / inject_Z m)). split; [reflexivity|]. split; [|exact I].
    cbn [value_of] in V. injection V as <-.
    destruct (good_toQ (VInt n) (kz n) eq_refl) as [D1 E1]. destruct (good_toQ (VInt m) (kz m) eq_refl) as [D2 E2]. cbn [to_Q] in *.
    change (in_field n) with (kz n). rewrite E1, E2 in *. destruct (inv_ok_q (inject_Z m) D2 NZ) as [D3 E3].
    assert (Q : den_ok (inject_Z n / inject_Z m) /\ qk (inject_Z n / inject_Z m) = (qk (inject_Z n) / qk (inject_Z m))%fld).
    { unfold Qdiv, Qmult. split; [unfold den_ok in *; cbn [Qden]; rewrite kz_pos_mul; apply mul_nz; assumption|].
      transitivity (qk (inject_Z n) * qk (/ inject_Z m))%fld; [unfold qk; cbn [Qnum Qden]; rewrite kz_pos_mul, kz_mul; field; auto|]. rewrite E3. field. exact NZ. }
    destruct Q as [Q1 Q2]. rewrite <- Q2. apply good_frac, Q1.
  - cbn [value_of] in V. unfold invariant in V. cbn [fold tree eval_node]. destruct (oPs (inv_text x)) as [y|]; [|discriminate V]. injection V as <-. exists (VElt y). split; [reflexivity|]. split; [reflexivity|]. intros _; exact I.
  - discriminate D.
  - cbn [value_of] in V. sinv S. apply IH; try assumption. intros C. apply NC. unfold symbols in *. cbn [toks]. apply (clash_pre [TL]); [apply clash_suf, C|left]. apply (end_not []). discriminate.
  - discriminate D.
  - destruct (integral (Pow a b)) eqn:I; [rewrite <- I; apply int_holds; assumption|]. sinv S. destruct S as [Ha Hb]. destruct X as (X1 & X2 & X3). cbn [value_of] in V.
    destruct (val a) as [va|] eqn:Va; [|discriminate V]. destruct (int_value b) as [n|] eqn:Vb; [|discriminate V]. cbn [integral] in I.
    assert (Ib : integral b = true). { clear - Vb. revert n Vb. induction b; intros n' H; cbn [int_value integral] in *; try discriminate H; try reflexivity; try (eapply IHb; exact H);
      try (apply lift_opt_some in H; destruct H as (u & k & Eu & Ek & _); rewrite (IHb1 u Eu), (IHb2 k Ek); reflexivity). destruct (int_value b) as [u|]; [|discriminate H]. exact (IHb u eq_refl). }
    rewrite Ib, andb_true_r in I. assert (NA : ~ clash (symbols a)) by (unfold symbols in NC; cbn [toks] in NC; exact (no_l _ _ NC)).
    destruct (proj1 IHa (atom_sum _ Ha) X1 NA va Va) as (wa & Ea & Ga & Na). destruct (pow_good wa va n v (Na I) Ga V) as (w & Ew & Gw & Nw).
    exists w. cbn [fold tree eval_node]. rewrite Ea, (int_eval b n Vb). cbn [rbind]. auto.
  - exfalso. assert (S := sum_term _ T). sinv S. destruct S as [Ha Hb]. cbn [fold] in D. rewrite div_pow in D.
    assert (D' : exists f', div_last (fold b) m = Some f' /\ forall n, fold b <> PNum n).
    { destruct (fold b) eqn:Eb; try discriminate D; rewrite <- Eb in *; (destruct (div_last (fold b) m) as [f'|]; [|discriminate D]); exists f'; (split; [reflexivity|]); intros n Y; rewrite Eb in Y; discriminate Y. }
    destruct D' as (f' & D1 & D2). apply NC. unfold symbols. cbn [toks]. destruct (open_factor b m f' Hb D1) as [(s & k & E & Fs)|(l & s & k & E & Fs & Ns)]; unfold symbols in E; rewrite E; repeat (rewrite <- app_assoc; cbn [app]).
    + apply clash_sign; [exact Fs|]. intros ->. apply (D2 k). rewrite (one_num b k E). reflexivity.
    + replace (toks [TStar] a ++ TCaret :: l ++ TCaret :: s ++ [TNum k; TSlash; TNum m]) with ((toks [TStar] a ++ TCaret :: l) ++ TCaret :: s ++ TNum k :: TSlash :: TNum m :: []) by (rewrite <- app_assoc; reflexivity). apply clash_sign; assumption.
  - sinv S. cbn [value_of] in V. destruct (val a) as [va|] eqn:Va; [|discriminate V]. injection V as <-. assert (NA : ~ clash (symbols a)) by (apply (no_r [] TMinus); [discriminate|exact NC]).
    destruct (proj1 IH (factor_sum _ S) X NA va Va) as (w & E & G & Ni). cbn [fold tree eval_node]. rewrite E. cbn [rmap]. destruct (neg_good w va G) as [G' N']. exists (v_neg w). split; [reflexivity|]. split; [exact G'|]. cbn [integral]. auto.
  - assert (S := sum_term _ T). sinv S. cbn [value_of] in V. destruct (val a) as [va|] eqn:Va; [|discriminate V]. injection V as <-. cbn [fold div_last] in D. destruct (div_last (fold a) m) as [f'|] eqn:Da; [|discriminate D]. injection D as <-.
    assert (NA : ~ clash (symbols a ++ [TSlash; TNum m])) by (apply (no_r [] TMinus); [discriminate|exact NC]).
    destruct (proj2 IH (factor_term _ S) X m NA va Va NZ f' Da) as (w & E & G & Ni). cbn [tree eval_node]. rewrite E. cbn [rmap]. destruct (neg_good w _ G) as [G' N']. exists (v_neg w). split; [reflexivity|]. split; [|auto]. replace (- va / kz m)%fld with (- (va / kz m))%fld by (field; exact NZ). exact G'.
  - sinv S. cbn [value_of] in V. assert (NA : ~ clash (symbols a)) by (apply (no_r [] TPlus); [discriminate|exact NC]). exact (proj1 IH (factor_sum _ S) X NA v V).
  - assert (S := sum_term _ T). sinv S. cbn [value_of] in V. cbn [fold div_last] in D. destruct (div_last (fold a) m) as [f'|] eqn:Da; [|discriminate D]. injection D as <-.
    assert (NA : ~ clash (symbols a ++ [TSlash; TNum m])) by (apply (no_r [] TPlus); [discriminate|exact NC]). exact (proj2 IH (factor_term _ S) X m NA v V NZ f' Da).
  - destruct (integral (Mul a b)) eqn:I; [rewrite <- I; apply int_holds; assumption|]. sinv S. destruct S as [Ha Hb]. destruct X as (X1 & X2). cbn [value_of] in V. apply lift_opt_some in V. destruct V as (va & vb & Va & Vb & V). injection V as <-.
    unfold symbols in NC. cbn [toks] in NC. cbn [integral] in I. apply (bin_holds AMul v_mul fmul); [reflexivity|exact mul_good|exact I| |].
    + exact (proj1 IHa (sum_term _ Ha) X1 (no_l _ _ NC) va Va).
    + exact (proj1 IHb (factor_sum _ Hb) X2 (no_r _ TStar _ ltac:(discriminate) NC) vb Vb).
  - assert (S := sum_term _ T). sinv S. destruct S as [Ha Hb]. destruct X as (X1 & X2). cbn [value_of] in V. apply lift_opt_some in V. destruct V as (va & vb & Va & Vb & V). injection V as <-.
    unfold symbols in NC. cbn [toks] in NC. rewrite <- app_assoc in NC. cbn [app] in NC. cbn [fold div_last] in D. destruct (div_last (fold b) m) as [f'|] eqn:Db; [|discriminate D]. injection D as <-.
    destruct (proj1 IHa (sum_term _ Ha) X1 (no_l _ _ NC) va Va) as (wa & Ea & Ga & Na). destruct (proj2 IHb (factor_term _ Hb) X2 m (no_r _ TStar _ ltac:(discriminate) NC) vb Vb NZ f' Db) as (wb & Eb & Gb & Nb).
    cbn [tree eval_node]. rewrite Ea, Eb. cbn [rbind]. replace (va * vb / kz m)%fld with (va * (vb / kz m))%fld by (field; exact NZ). apply mul_good; auto.
  - destruct (integral (Jux a b)) eqn:I; [rewrite <- I; apply int_holds; assumption|]. sinv S. destruct S as (Ha & Hb & _). destruct X as (X1 & X2). cbn [value_of] in V. apply lift_opt_some in V. destruct V as (va & vb & Va & Vb & V). injection V as <-.
    unfold symbols in NC. cbn [toks app] in NC. cbn [integral] in I. apply (bin_holds AMul v_mul fmul); [reflexivity|exact mul_good|exact I| |].
    + exact (proj1 IHa (sum_term _ Ha) X1 (no_l _ _ NC) va Va).
    + exact (proj1 IHb (factor_sum _ Hb) X2 (no_r _ TStar _ ltac:(discriminate) NC) vb Vb).
  - assert (S := sum_term _ T). sinv S. destruct S as (Ha & Hb & _). destruct X as (X1 & X2). cbn [value_of] in V. apply lift_opt_some in V. destruct V as (va & vb & Va & Vb & V). injection V as <-.
    unfold symbols in NC. cbn [toks app] in NC. rewrite <- app_assoc in NC. cbn [app] in NC. cbn [fold div_last] in D. destruct (div_last (fold b) m) as [f'|] eqn:Db; [|discriminate D]. injection D as <-.
    destruct (proj1 IHa (sum_term _ Ha) X1 (no_l _ _ NC) va Va) as (wa & Ea & Ga & Na). destruct (proj2 IHb (factor_term _ Hb) X2 m (no_r _ TStar _ ltac:(discriminate) NC) vb Vb NZ f' Db) as (wb & Eb & Gb & Nb).
    cbn [tree eval_node]. rewrite Ea, Eb. cbn [rbind]. replace (va * vb / kz m)%fld with (va * (vb / kz m))%fld by (field; exact NZ). apply mul_good; auto.
  - sinv S. destruct S as [Ha Hb]. destruct X as (X1 & X2 & X3). cbn [value_of] in V. apply lift_opt_some in V. destruct V as (va & vb & Va & Vb & V). apply over_ok in V. destruct V as [NZ ->].
    unfold symbols in NC. cbn [toks] in NC. assert (NA := no_l _ _ NC). assert (NB := no_r _ TSlash _ ltac:(discriminate) NC).
    assert (Y : fold (Div a b) = PDiv (fold a) (fold b) -> integral a && integral b = false -> exists w, ev (tree (fold (Div a b))) = Ok w /\ good w (va / vb)%fld /\ (integral (Div a b) = false -> nonint w)).
    { intros E I. rewrite E. destruct (proj1 IHa (sum_term _ Ha) X1 NA va Va) as (wa & Ea & Ga & Na). destruct (proj1 IHb (factor_sum _ Hb) X2 NB vb Vb) as (wb & Eb & Gb & Nb). cbn [tree eval_node]. rewrite Ea, Eb. cbn [rbind].
      destruct (div_good wa wb va vb Ga Gb) as (w & Ew & Gw & Nw); [apply andb_false_iff in I; destruct I; auto|exact NZ|]. exists w. auto. }
    destruct (integral a && integral b) eqn:I.
    + apply andb_true_iff in I. destruct I as [Ia Ib]. destruct (X3 Ia Ib) as ((m & ->) & O). assert (Dn := closed_last a m Ia O). rewrite fold_div. destruct (div_last (fold a) m) as [f|] eqn:D; [|congruence].
      cbn [value_of] in Vb. injection Vb as <-. destruct (proj2 IHa Ha X1 m NC va Va NZ f D) as (w & E & G & Nw). exists w. auto.
    + rewrite fold_div in *. destruct b; try (apply Y; reflexivity). destruct (div_last (fold a) n) as [f|] eqn:D; [|apply Y; reflexivity].
      cbn [value_of] in Vb. injection Vb as <-. destruct (proj2 IHa Ha X1 n NC va Va NZ f D) as (w & E & G & Nw). exists w. auto.
  - exfalso. assert (S := sum_term _ T). sinv S. destruct S as [Ha Hb]. rewrite fold_div in D. apply NC. unfold symbols. cbn [toks].
    assert (Y : forall f', div_last (fold b) m = Some f' -> clash ((toks [TStar] a ++ TSlash :: toks [TStar] b) ++ [TSlash; TNum m])).
    { intros f' D1. destruct (open_factor b m f' Hb D1) as [(s & k & E & Fs)|(l & s & k & E & Fs & Ns)]; unfold symbols in E; rewrite E; repeat (rewrite <- app_assoc; cbn [app]).
      + apply clash_div. exact Fs.
      + replace (toks [TStar] a ++ TSlash :: l ++ TCaret :: s ++ [TNum k; TSlash; TNum m]) with ((toks [TStar] a ++ TSlash :: l) ++ TCaret :: s ++ TNum k :: TSlash :: TNum m :: []) by (rewrite <- app_assoc; reflexivity). apply clash_sign; assumption. }
    assert (Y2 : div_last (PDiv (fold a) (fold b)) m = Some f -> clash ((toks [TStar] a ++ TSlash :: toks [TStar] b) ++ [TSlash; TNum m])) by (cbn [div_last]; destruct (div_last (fold b) m) as [f'|]; [intros _; exact (Y f' eq_refl)|discriminate]).
    destruct b; try exact (Y2 D). destruct (div_last (fold a) n) as [f0|] eqn:E0; [|exact (Y2 D)]. rewrite (div_last_twice _ _ m _ E0) in D. discriminate D.
  - destruct (integral (Add a b)) eqn:I; [rewrite <- I; apply int_holds; assumption|]. sinv S. destruct S as [Ha Hb]. destruct X as (X1 & X2). cbn [value_of] in V. apply lift_opt_some in V. destruct V as (va & vb & Va & Vb & V). injection V as <-.
    unfold symbols in NC. cbn [toks] in NC. cbn [integral] in I. apply (bin_holds AAdd v_add fadd); [reflexivity|exact add_good|exact I| |].
    + exact (proj1 IHa Ha X1 (no_l _ _ NC) va Va).
    + exact (proj1 IHb (sum_term _ Hb) X2 (no_r _ TPlus _ ltac:(discriminate) NC) vb Vb).
  - exfalso. inv T. inv H. inv H0.
  - destruct (integral (Sub a b)) eqn:I; [rewrite <- I; apply int_holds; assumption|]. sinv S. destruct S as [Ha Hb]. destruct X as (X1 & X2). cbn [value_of] in V. apply lift_opt_some in V. destruct V as (va & vb & Va & Vb & V). injection V as <-.
    unfold symbols in NC. cbn [toks] in NC. cbn [integral] in I. apply (bin_holds ASub v_sub fsub); [reflexivity|exact sub_good|exact I| |].
    + exact (proj1 IHa Ha X1 (no_l _ _ NC) va Va).
    + exact (proj1 IHb (sum_term _ Hb) X2 (no_r _ TMinus _ ltac:(discriminate) NC) vb Vb).
  - exfalso. inv T. inv H. inv H0.
Qed.
Theorem eval_ok e : sum e -> ~ clash (symbols e) -> exact e -> forall v, val e = Some v ->
  exists w, py_eval oPs (written e) = Ok w /\ to_K w = Ok v /\ (integral e = true -> exists z, w = VInt z).
Proof.
  intros S NC X v V. destruct (proj1 (all_hold e) S X NC v V) as (w & E & G & _). exists w. unfold py_eval. rewrite parse_tree by assumption. cbn [rbind]. split; [exact E|]. split; [exact G|].
  intros I. destruct (int_defined e I X) as (z & Z). rewrite (int_eval e z Z) in E. injection E as <-. eauto.
Qed.
End Eval.
