(* The closed formulas for s_ijk and Delta_ijk solve the two equations. *)
From Coq Require Import Ascii String.
From Coq Require Import List ZArith Bool Lia Field Ring_polynom Ring_theory InitialRing Setoid.
From Verif Require Import Base Fld Str Parse ParseEval ClosedText Closed.
Import ListNotations.
Open Scope Z_scope.

Section Pow.
Context {K : Fld}.
Add Field Kcf0 : (fth K).
Lemma pow_N_kpow (x : K) n : pow_N f1 fmul x (Z.to_N n) = kpow x (Z.to_nat n).
Proof.
  destruct n as [|p|p]; [reflexivity| |reflexivity]. cbn [Z.to_N pow_N Z.to_nat].
  induction p as [|p IH] using Pos.peano_ind.
  - change (x = (x * 1)%fld). ring.
  - rewrite Pos2Nat.inj_succ. cbn [kpow]. rewrite <- IH. destruct (fth K) as [[_ _ _ _ _ Ma _ _ _] _ _ _].
    apply (pow_pos_succ (req := eq) (Eqsth K) (Eq_ext (@fadd K) fmul fopp).(Rmul_ext) Ma).
Qed.
End Pow.

(* the polynomials among the expressions, for the machinery behind ring *)
Definition position (w : pystr) : option positive :=
  match w with
  | [c] => if (97 <=? c) && (c <=? 112) then Some (Z.to_pos (c - 96)) else if c =? 89 then Some 17%positive else if c =? 88 then Some 18%positive else None
  | _ => None
  end.
Fixpoint pe (a : fexpr) : option (PExpr Z) :=
  match a with
  | FNum z => Some (PEc z)
  | FName w => match position w with Some j => Some (PEX Z j) | None => None end
  | FAdd a b => match pe a, pe b with Some p, Some q => Some (PEadd p q) | _, _ => None end
  | FSub a b => match pe a, pe b with Some p, Some q => Some (PEsub p q) | _, _ => None end
  | FMul a b => match pe a, pe b with Some p, Some q => Some (PEmul p q) | _, _ => None end
  | FPow a (FNum n) => if 0 <=? n then match pe a with Some p => Some (PEpow p (Z.to_N n)) | None => None end else None
  | FNeg a => match pe a with Some p => Some (PEopp p) | None => None end
  | _ => None
  end.
Fixpoint has_name (a : fexpr) : bool :=
  match a with
  | FNum _ => false
  | FName _ => true
  | FAdd a b | FSub a b | FMul a b | FDiv a b => has_name a || has_name b
  | FPow a _ | FNeg a | FSqrt a => has_name a
  end.

Section Poly.
Context {K : Fld}.
Add Field Kcf1 : (fth K).
Definition ev (l : list K) (p : PExpr Z) : K := PEeval f0 f1 fadd fmul fsub fopp kz id_phi_N (pow_N f1 fmul) l p.
Lemma ev_opp l p : ev l (PEopp p) = (- ev l p)%fld. Proof. reflexivity. Qed.
Lemma ev_add l p q : ev l (PEadd p q) = (ev l p + ev l q)%fld. Proof. reflexivity. Qed.
Lemma ev_sub l p q : ev l (PEsub p q) = (ev l p - ev l q)%fld. Proof. reflexivity. Qed.
Lemma ev_mul l p q : ev l (PEmul p q) = (ev l p * ev l q)%fld. Proof. reflexivity. Qed.
Lemma ev_c l c : ev l (PEc c) = kz c. Proof. reflexivity. Qed.
Lemma ev_x l n : ev l (PEX Z n) = BinList.nth 0%fld n l. Proof. reflexivity. Qed.
Definition normal (p : PExpr Z) : Pol Z := norm_subst 0 1 Z.add Z.mul Z.sub Z.opp Zeq_bool (triv_div 0 1 Zeq_bool) 0 [] p.
Lemma same_values p q (l : list K) : Peq Zeq_bool (normal p) (normal q) = true -> ev l p = ev l q.
Proof.
  intros H. assert (RT := F_R (fth K)). assert (Ex := Eq_ext (@fadd K) fmul fopp). assert (AR := Rth_ARth (Eqsth K) Ex RT).
  assert (Mo := gen_phiZ_morph (Eqsth K) Ex RT).
  exact (ring_correct (Eqsth K) Ex AR Mo (pow_N_th f1 fmul (Eqsth K)) (triv_div_th (Eqsth K) Ex AR Mo) 0 l [] p q I H).
Qed.
(* a value that is a whole number or an element *)
Definition sem (v : value K) (x : K) : Prop := match v with VInt z => kz z = x | VElt y => y = x | _ => False end.
Lemma sem_K v x : sem v x -> to_K v = Ok x.
Proof. destruct v; cbn; intros H; try contradiction; congruence. Qed.
Definition arguments (args : list K) (Y X : K) : list K := args ++ [Y; X].
Lemma param_nth args Y X w j : length args = 16%nat -> position w = Some j -> parameters args Y X w = Some (BinList.nth 0%fld j (arguments args Y X)).
Proof.
  intros L H. unfold arguments. do 16 (destruct args as [|? args]; [discriminate L|]). destruct args; [|discriminate L]. clear L.
  destruct w as [|z [|? ?]]; try discriminate H. unfold position in H. unfold parameters. destruct ((97 <=? z) && (z <=? 112)) eqn:R.
  - apply andb_true_iff in R as [R1 R2]. apply Z.leb_le in R1, R2. injection H as <-.
    assert (Q : z = 97 \/ z = 98 \/ z = 99 \/ z = 100 \/ z = 101 \/ z = 102 \/ z = 103 \/ z = 104 \/ z = 105 \/ z = 106 \/ z = 107 \/ z = 108 \/ z = 109 \/ z = 110 \/ z = 111 \/ z = 112) by lia.
    repeat (destruct Q as [-> | Q]; [reflexivity|]). subst z. reflexivity.
  - destruct (z =? 89); [injection H as <-; reflexivity|]. destruct (z =? 88); [injection H as <-; reflexivity|discriminate].
Qed.
Lemma sem_add v w x y : sem v x -> sem w y -> exists u, v_add v w = Ok u /\ sem u (x + y)%fld /\ (sem v x -> (v = VElt x \/ w = VElt y) -> u = VElt (x + y)%fld).
Proof.
  destruct v, w; cbn; intros H H'; try contradiction; subst; eexists; (split; [reflexivity|]); cbn; rewrite ?kz_add; (split; [reflexivity|]); intros _ [E|E]; congruence.
Qed.
Lemma sem_sub v w x y : sem v x -> sem w y -> exists u, v_sub v w = Ok u /\ sem u (x - y)%fld /\ (sem v x -> (v = VElt x \/ w = VElt y) -> u = VElt (x - y)%fld).
Proof.
  destruct v, w; cbn; intros H H'; try contradiction; subst; eexists; (split; [reflexivity|]); cbn; rewrite ?kz_sub; (split; [reflexivity|]); intros _ [E|E]; congruence.
Qed.
Lemma sem_mul v w x y : sem v x -> sem w y -> exists u, v_mul v w = Ok u /\ sem u (x * y)%fld /\ (sem v x -> (v = VElt x \/ w = VElt y) -> u = VElt (x * y)%fld).
Proof.
  destruct v, w; cbn; intros H H'; try contradiction; subst; eexists; (split; [reflexivity|]); cbn; rewrite ?kz_mul; (split; [reflexivity|]); intros _ [E|E]; congruence.
Qed.
Lemma kz_pow z n : 0 <= n -> kz (z ^ n) = kpow (kz z) (Z.to_nat n) :> K.
Proof.
  intros H. rewrite <- (Z2Nat.id n H) at 1. generalize (Z.to_nat n). clear n H. intros n. induction n as [|n IH]; [exact kz_1|].
  rewrite Nat2Z.inj_succ, Z.pow_succ_r by lia. rewrite kz_mul, IH. reflexivity.
Qed.
Lemma sem_pow v x n : 0 <= n -> sem v x -> exists u, v_pow v (VInt n) = Ok u /\ sem u (kpow x (Z.to_nat n)) /\ (v = VElt x -> u = VElt (kpow x (Z.to_nat n))).
Proof.
  intros N H. assert (Q : (n <? 0) = false) by (apply Z.ltb_ge; lia). destruct v; cbn in H |- *; try contradiction; subst; unfold k_pow; rewrite Q; eexists; (split; [reflexivity|]); cbn.
  - split; [apply kz_pow, N|intros E; congruence].
  - split; [reflexivity|intros _; reflexivity].
Qed.
Lemma pe_value args Y X : length args = 16%nat -> forall e p, pe e = Some p -> exists v, fvalue (parameters args Y X) e = Ok v /\ sem v (ev (arguments args Y X) p) /\
  (has_name e = true -> v = VElt (ev (arguments args Y X) p)).
Proof.
  intros L. set (env := parameters args Y X). set (l := arguments args Y X).
  assert (Bin : forall (va vb : value K) xa xb (ha hb : bool), (ha = true -> va = VElt xa) -> (hb = true -> vb = VElt xb) -> ha || hb = true -> va = VElt xa \/ vb = VElt xb).
  { intros va vb xa xb ha hb Ha Hb H. apply orb_true_iff in H as [H|H]; auto. }
  induction e as [z|w|a IHa b IHb|a IHa b IHb|a IHa b IHb|a IHa b IHb|a IHa b IHb|a IHa|a IHa]; cbn [pe]; intros p E.
  - injection E as <-. exists (VInt z). cbn. repeat split; intros; discriminate.
  - destruct (position w) as [j|] eqn:P; [|discriminate]. injection E as <-. cbn [fvalue]. unfold env. rewrite (param_nth _ _ _ _ _ L P). eexists. repeat split.
  - destruct (pe a) as [pa|]; [|discriminate]. destruct (pe b) as [pb|]; [|discriminate]. injection E as <-. destruct (IHa _ eq_refl) as (va & Ea & Sa & Na). destruct (IHb _ eq_refl) as (vb & Eb & Sb & Nb).
    cbn [fvalue has_name]. rewrite Ea, Eb. cbn [rbind]. destruct (sem_add _ _ _ _ Sa Sb) as (u & Eu & Su & Nu). exists u. split; [exact Eu|]. split; [exact Su|]. intros H. apply Nu; [exact Sa|]. exact (Bin _ _ _ _ _ _ Na Nb H).
  - destruct (pe a) as [pa|]; [|discriminate]. destruct (pe b) as [pb|]; [|discriminate]. injection E as <-. destruct (IHa _ eq_refl) as (va & Ea & Sa & Na). destruct (IHb _ eq_refl) as (vb & Eb & Sb & Nb).
    cbn [fvalue has_name]. rewrite Ea, Eb. cbn [rbind]. destruct (sem_sub _ _ _ _ Sa Sb) as (u & Eu & Su & Nu). exists u. split; [exact Eu|]. split; [exact Su|]. intros H. apply Nu; [exact Sa|]. exact (Bin _ _ _ _ _ _ Na Nb H).
  - destruct (pe a) as [pa|]; [|discriminate]. destruct (pe b) as [pb|]; [|discriminate]. injection E as <-. destruct (IHa _ eq_refl) as (va & Ea & Sa & Na). destruct (IHb _ eq_refl) as (vb & Eb & Sb & Nb).
    cbn [fvalue has_name]. rewrite Ea, Eb. cbn [rbind]. destruct (sem_mul _ _ _ _ Sa Sb) as (u & Eu & Su & Nu). exists u. split; [exact Eu|]. split; [exact Su|]. intros H. apply Nu; [exact Sa|]. exact (Bin _ _ _ _ _ _ Na Nb H).
  - discriminate.
  - destruct b as [n| | | | | | | |]; try discriminate. destruct (0 <=? n) eqn:Hn; [|discriminate]. apply Z.leb_le in Hn. destruct (pe a) as [pa|]; [|discriminate]. injection E as <-. destruct (IHa _ eq_refl) as (va & Ea & Sa & Na).
    cbn [fvalue has_name]. rewrite Ea. cbn [rbind]. destruct (sem_pow _ _ _ Hn Sa) as (u & Eu & Su & Nu). exists u. split; [exact Eu|].
    assert (Q : ev l (PEpow pa (Z.to_N n)) = kpow (ev l pa) (Z.to_nat n)) by exact (pow_N_kpow (ev l pa) n). rewrite Q. split; [exact Su|]. intros H. apply Nu, Na, H.
  - destruct (pe a) as [pa|]; [|discriminate]. injection E as <-. destruct (IHa _ eq_refl) as (va & Ea & Sa & Na). cbn [fvalue has_name]. rewrite Ea. cbn [rmap]. exists (v_neg va). split; [reflexivity|].
    assert (Q : ev l (PEopp pa) = (- ev l pa)%fld) by reflexivity. rewrite Q. split; [|intros H; rewrite (Na H); reflexivity]. destruct va; cbn in Sa |- *; try contradiction; [rewrite kz_opp|]; congruence.
  - discriminate.
Qed.
End Poly.

(* ---- the parts of the texts ---- *)
Definition tree (s : pystr) : fexpr := match formula s with Ok e => e | Err _ => FNum 0 end.
Definition tA := tree text_A.
Definition tB := tree text_B.
Definition tB1 := tree text_B1.
Definition tC := tree text_C.
Definition t_num : fexpr := FSub tB (FSqrt (FSub (FPow tB1 (FNum 2)) (FMul (FMul (FNum 4) tA) tC))).
Definition t_den : fexpr := FMul (FNum 2) tA.
Definition t_D : fexpr := tree (lit "d*f*g-c*f*h+d*j*k-c*j*l").
Definition t_N : fexpr := tree (lit "b*d*i*k+f*h*i*k-b*c*i*l-f*g*i*l-Y").
Definition t_part (x : string) : fexpr := FDiv (FMul (tree (lit x)) t_num) t_den.
Lemma parse_e : formula text_e = Ok (FDiv t_num t_den).
Proof. vm_cast_no_check (@eq_refl (result fexpr) (Ok (FDiv t_num t_den))). Qed.
Definition t_a : fexpr := FMul (FDiv (FNum 1) t_D) (FAdd (FSub (FSub (FAdd t_N (t_part "b*d*g")) (t_part "b*c*h")) (t_part "h*j*k")) (t_part "g*j*l")).
Lemma parse_a : formula text_a = Ok t_a.
Proof. vm_cast_no_check (@eq_refl (result fexpr) (Ok t_a)). Qed.
Definition poly_of (t : fexpr) : PExpr Z := match pe t with Some p => p | None => PEO end.
Definition poly_ok (t : fexpr) : bool := (match pe t with Some _ => true | None => false end) && has_name t.
Lemma poly_ok_of t : poly_ok t = true -> pe t = Some (poly_of t) /\ has_name t = true.
Proof. unfold poly_ok, poly_of. destruct (pe t); [intros H; split; [reflexivity|exact H]|discriminate]. Qed.
Lemma ok_A : poly_ok tA = true. Proof. vm_cast_no_check (eq_refl true). Qed.
Lemma ok_B : poly_ok tB = true. Proof. vm_cast_no_check (eq_refl true). Qed.
Lemma ok_B1 : poly_ok tB1 = true. Proof. vm_cast_no_check (eq_refl true). Qed.
Lemma ok_C : poly_ok tC = true. Proof. vm_cast_no_check (eq_refl true). Qed.
Lemma ok_D : poly_ok t_D = true. Proof. vm_cast_no_check (eq_refl true). Qed.
Lemma ok_N : poly_ok t_N = true. Proof. vm_cast_no_check (eq_refl true). Qed.
Definition pA := poly_of tA. Definition pB := poly_of tB. Definition pC := poly_of tC.
Definition pD := poly_of t_D. Definition pN := poly_of t_N.
Lemma pA_eq : pA = poly_of tA. Proof. unfold pA. reflexivity. Qed.
Lemma pB_eq : pB = poly_of tB. Proof. unfold pB. reflexivity. Qed.
Lemma pC_eq : pC = poly_of tC. Proof. unfold pC. reflexivity. Qed.
Lemma pD_eq : pD = poly_of t_D. Proof. unfold pD. reflexivity. Qed.
Lemma pN_eq : pN = poly_of t_N. Proof. unfold pN. reflexivity. Qed.
(* x_n for the n-th parameter *)
Notation px n := (PEX Z n%positive).
Definition pM : PExpr Z := PEadd (PEsub (PEsub (poly_of (tree (lit "b*d*g"))) (poly_of (tree (lit "b*c*h")))) (poly_of (tree (lit "h*j*k")))) (poly_of (tree (lit "g*j*l"))).
(* D a, for the first equation *)
Definition pU : PExpr Z := PEadd pN (PEmul pM (px 5)).
(* D times the sum of the first two momenta, and the sum of the next two *)
Definition pP00 := PEadd (PEmul pU (px 3)) (PEmul pD (PEmul (px 5) (px 7))).
Definition pP01 := PEadd (PEmul pU (px 4)) (PEmul pD (PEmul (px 5) (px 8))).
Definition pP10 := PEmul pD (PEadd (PEmul (px 2) (px 3)) (PEmul (px 6) (px 7))).
Definition pP11 := PEmul pD (PEadd (PEmul (px 2) (px 4)) (PEmul (px 6) (px 8))).
Definition pQ00 := PEadd (PEmul (px 9) (px 11)) (PEmul (px 13) (px 15)).
Definition pQ01 := PEadd (PEmul (px 9) (px 12)) (PEmul (px 13) (px 16)).
Definition pQ10 := PEadd (PEmul (px 10) (px 11)) (PEmul (px 14) (px 15)).
Definition pQ11 := PEadd (PEmul (px 10) (px 12)) (PEmul (px 14) (px 16)).
Definition pPQ := PEsub (PEsub (PEadd (PEmul pP00 pQ11) (PEmul pP11 pQ00)) (PEmul pP01 pQ10)) (PEmul pP10 pQ01).
Definition pdet (a b c d : PExpr Z) := PEsub (PEmul a d) (PEmul b c).
Definition p_rhs := PEsub (PEmul (PEmul (PEc 4) (PEmul pD pD)) (px 18)) (PEsub (PEmul pPQ pPQ) (PEmul (PEc 4) (PEmul (pdet pP00 pP01 pP10 pP11) (pdet pQ00 pQ01 pQ10 pQ11)))).
Definition p_lhs := PEadd (PEsub (PEmul pA (PEmul (px 5) (px 5))) (PEmul pB (px 5))) pC.
Lemma quadratic_ok : Peq Zeq_bool (normal p_lhs) (normal p_rhs) = true.
Proof. vm_cast_no_check (eq_refl true). Qed.
Lemma roots_ok : Peq Zeq_bool (normal (poly_of tB1)) (normal (PEopp pB)) = true.
Proof. vm_cast_no_check (eq_refl true). Qed.

(* the parameters a polynomial does not contain *)
Fixpoint avoids (p : PExpr Z) : bool :=
  match p with
  | PEO | PEI | PEc _ => true
  | PEX _ j => negb (Pos.eqb j 5) && Pos.leb j 18
  | PEadd a b | PEsub a b | PEmul a b => avoids a && avoids b
  | PEopp a | PEpow a _ => avoids a
  end.
Lemma avoids_A : avoids pA = true. Proof. vm_cast_no_check (eq_refl true). Qed.
Lemma avoids_B : avoids pB = true. Proof. vm_cast_no_check (eq_refl true). Qed.
Lemma avoids_C : avoids pC = true. Proof. vm_cast_no_check (eq_refl true). Qed.
Definition m1 := tree (lit "b*d*g"). Definition m2 := tree (lit "b*c*h"). Definition m3 := tree (lit "h*j*k"). Definition m4 := tree (lit "g*j*l").
Lemma ok_1 : poly_ok m1 = true. Proof. vm_cast_no_check (eq_refl true). Qed.
Lemma ok_2 : poly_ok m2 = true. Proof. vm_cast_no_check (eq_refl true). Qed.
Lemma ok_3 : poly_ok m3 = true. Proof. vm_cast_no_check (eq_refl true). Qed.
Lemma ok_4 : poly_ok m4 = true. Proof. vm_cast_no_check (eq_refl true). Qed.
Section Explicit.
Context {K : Fld}.
Open Scope fld_scope.
Lemma avoids_ev (l l' : list K) p : avoids p = true -> (forall j, j <> 5%positive -> (j <= 18)%positive -> BinList.nth 0 j l = BinList.nth 0 j l') -> ev l p = ev l' p.
Proof.
  intros A H. induction p; cbn [avoids] in A; rewrite ?ev_add, ?ev_sub, ?ev_mul, ?ev_opp, ?ev_c, ?ev_x; try reflexivity;
    try (apply andb_true_iff in A as [A1 A2]; rewrite IHp1, IHp2 by assumption; reflexivity).
  - apply andb_true_iff in A as [A1 A2]. apply negb_true_iff in A1. apply Pos.eqb_neq in A1. apply Pos.leb_le in A2. apply H; assumption.
  - rewrite IHp by assumption. reflexivity.
  - unfold ev in *. cbn [PEeval]. rewrite IHp by assumption. reflexivity.
Qed.
Context (a b c d e f g h i j k l m n o p Y X : K).
Notation all := [a; b; c; d; e; f; g; h; i; j; k; l; m; n; o; p; Y; X].
Lemma evD : ev all pD = d * f * g - c * f * h + d * j * k - c * j * l. Proof. reflexivity. Qed.
Lemma evN : ev all pN = b * d * i * k + f * h * i * k - b * c * i * l - f * g * i * l - Y. Proof. reflexivity. Qed.
Lemma ev1 : ev all (poly_of m1) = b * d * g. Proof. reflexivity. Qed.
Lemma ev2 : ev all (poly_of m2) = b * c * h. Proof. reflexivity. Qed.
Lemma ev3 : ev all (poly_of m3) = h * j * k. Proof. reflexivity. Qed.
Lemma ev4 : ev all (poly_of m4) = g * j * l. Proof. reflexivity. Qed.
Lemma quadratic : let D := d * f * g - c * f * h + d * j * k - c * j * l in
  let u := (b * d * i * k + f * h * i * k - b * c * i * l - f * g * i * l - Y) + (b * d * g - b * c * h - h * j * k + g * j * l) * e in
  let P00 := u * c + D * (e * g) in let P01 := u * d + D * (e * h) in let P10 := D * (b * c + f * g) in let P11 := D * (b * d + f * h) in
  let Q00 := i * k + m * o in let Q01 := i * l + m * p in let Q10 := j * k + n * o in let Q11 := j * l + n * p in
  let PQ := P00 * Q11 + P11 * Q00 - P01 * Q10 - P10 * Q01 in
  ev all pA * (e * e) - ev all pB * e + ev all pC = 2 * 2 * (D * D) * X - (PQ * PQ - 2 * 2 * ((P00 * P11 - P01 * P10) * (Q00 * Q11 - Q01 * Q10))).
Proof.
  cbv zeta. assert (H := same_values _ _ all quadratic_ok). unfold p_lhs, p_rhs in H. rewrite !ev_add, !ev_sub, !ev_mul in H. rewrite (ev_x all 5) in H.
  transitivity (ev all pA * (e * e) - ev all pB * e + ev all pC); [reflexivity|]. etransitivity; [exact H|]. reflexivity.
Qed.
End Explicit.
