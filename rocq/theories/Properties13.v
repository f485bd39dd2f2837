(* C51: the values of arithmetic expressions. *)
From Coq Require Import Ascii String.
From Coq Require Import List ZArith Bool Lia.
From Verif Require Import Base Fld FldInst Str Parse ParseSpec ParseEval ParseVary.
Import ListNotations.
Open Scope Z_scope.

(* oPs(text) for three of the invariants of the examples *)
Definition ops13 (s : pystr) : result GF13 :=
  if str_eqb s (inv_text (Ang 1 2)) then Ok (g13 7) else if str_eqb s (inv_text (Sq 3 10)) then Ok (g13 4) else if str_eqb s (inv_text (Man 123)) then Ok (g13 11) else Err ValueError.
Definition val13 (a : inv) : option GF13 := match ops13 (inv_text a) with Ok x => Some x | Err _ => None end.
(* 2(3+⟨1|2⟩)[3|10]s_123/5^2-1*-3/14 *)
Definition e1 : expr :=
  Sub (Div (Jux (Jux (Jux (Num 2) (Par (Add (Num 3) (Inv (Ang 1 2))))) (Inv (Sq 3 10))) (Inv (Man 123))) (Pow (Num 5) (Num 2)))
      (Div (Mul (Num 1) (Neg (Num 3))) (Num 14)).
Definition x12 : expr := Inv (Ang 1 2).

(* no clash among given symbols *)
Fixpoint signs (l : list tok) : list tok := match l with TPlus :: r | TMinus :: r => signs r | _ => l end.
Definition frac_at (l : list tok) : bool := match l with TNum _ :: TSlash :: TNum _ :: _ => true | _ => false end.
Fixpoint clashb (caret : bool) (l : list tok) : bool :=
  match l with
  | [] => false
  | t :: r =>
      match t with
      | TSlash => frac_at (signs r)
      | TCaret => match r with TNum a :: _ => (10 <=? a) && frac_at r | _ => frac_at (signs r) end
      | TNum _ => negb caret && match r with TSlash :: TNum _ :: TCaret :: _ => true | _ => false end
      | _ => false
      end || clashb (match t with TCaret => true | _ => false end) r
  end.
Lemma signs_app s l : Forall sign s -> signs (s ++ l) = signs l.
Proof. induction 1 as [|t s [-> | ->] _ IH]; [reflexivity|exact IH|exact IH]. Qed.
Definition ends (c : bool) (l : list tok) : bool := match rev l with [] => c | TCaret :: _ => true | _ => false end.
Lemma clashb_app l r : forall c, clashb c (l ++ r) = false -> clashb (ends c l) r = false.
Proof.
  induction l as [|t l IH]; intros c H; [exact H|]. cbn [app clashb] in H. apply orb_false_iff in H. destruct H as [_ H]. apply IH in H. rewrite <- H. f_equal. unfold ends. cbn [rev].
  destruct (rev l) as [|u v] eqn:E; [destruct t; reflexivity|reflexivity].
Qed.
Lemma clashb_ok l : clashb false l = false -> ~ clash l.
Proof.
  intros H C. destruct C as [l s a b r Fs|l s a b r Fs Ns|l a b r A|l a b r N]; apply clashb_app in H; cbn [clashb] in H; apply orb_false_iff in H; destruct H as [H _].
  - rewrite signs_app in H by exact Fs. discriminate H.
  - destruct Fs as [|t s Ft Fs]; [congruence|]. destruct Ft as [-> | ->]; cbn [app signs] in H; rewrite signs_app in H by exact Fs; discriminate H.
  - cbn [frac_at] in H. rewrite (proj2 (Z.leb_le 10 a)) in H by exact A. discriminate H.
  - assert (E : ends false l = false). { unfold ends. destruct (rev l) as [|t v] eqn:E; [reflexivity|]. destruct t; try reflexivity. exfalso. apply (N (rev v)). rewrite <- (rev_involutive l), E. reflexivity. }
    rewrite E in H. discriminate H.
Qed.
Lemma val_is (r : option GF13) v : match r with Some x => feqb x v | None => false end = true -> r = Some v.
Proof. destruct r as [x|]; [|discriminate]. intros H. f_equal. apply (feqb_ok GF13), H. Qed.
Lemma res_is (r : result (value GF13)) v : match r with Ok w => match to_K w with Ok x => feqb x v | Err _ => false end | Err _ => false end = true -> exists w, r = Ok w /\ to_K w = Ok v.
Proof. destruct r as [w|]; [|discriminate]. destruct (to_K w) as [x|] eqn:E; [|discriminate]. intros H. exists w. split; [reflexivity|]. rewrite E. f_equal. apply (feqb_ok GF13), H. Qed.
Ltac lev := repeat first
  [ apply sum_add | apply sum_sub | apply sum_term | apply term_mul | apply term_div | apply term_jux | apply term_factor | apply factor_neg | apply factor_pos
  | apply factor_pow | apply factor_atom | apply atom_num; lia | apply atom_inv; cbn; lia | apply atom_par ].
Lemma e1_sum : sum e1.
Proof.
  unfold e1. lev.
  - apply (touch_num_par []).
  - apply (touch_par_inv [TNum 2; TL; TNum 3; TPlus; TInv (Ang 1 2)]).
  - apply (touch_inv_inv [TNum 2; TL; TNum 3; TPlus; TInv (Ang 1 2); TR]).
Qed.
Lemma e1_exact : exact e1.
Proof.
  unfold e1. cbn [exact integral int_value andb]. repeat split; try discriminate.
  - intros _ n H. injection H as <-. lia.
  - exists 14. reflexivity.
  - exists [TNum 1; TStar; TMinus], 3. split; [reflexivity|]. intros [|? [|? [|? [|? ?]]]]; discriminate.
Qed.

(* an expression written with the usual precedence is parsed and evaluated to its value in
   the field, if no whole numbers are taken together around a / against that precedence, and
   no whole number is divided or raised to a negative power in a way that gives a float;
   built from whole numbers without division, the result is an int; spaces, new lines, < and >
   for the brackets and a longer minus sign change nothing *)
Theorem C51_partial :
  forall (K : Fld) (oPs : pystr -> result K) (e : expr) (v : K) (u : pystr),
  sum e -> ~ clash (symbols e) -> exact e -> written_as (written e) u -> value_of (fun a => match oPs (inv_text a) with Ok x => Some x | Err _ => None end) e = Some v ->
  exists w, py_eval oPs u = Ok w /\ to_K w = Ok v /\ (integral e = true -> exists z, w = VInt z).
Proof. intros K oPs e v u S C X W V. rewrite (eval_as oPs e u S W). exact (eval_ok oPs e S C X v V). Qed.
Print Assumptions C51_partial.
Example C51_partial_ex : written e1 = lit "2(3+" ++ inv_text (Ang 1 2) ++ lit ")[3|10]s_123/5^2-1*-3/14" /\ sum e1 /\ ~ clash (symbols e1) /\ exact e1 /\
  value_of val13 e1 = Some (g13 7) /\ exists w, py_eval ops13 (written e1) = Ok w /\ to_K w = Ok (g13 7).
Proof.
  split; [reflexivity|]. split; [exact e1_sum|]. split; [apply clashb_ok; vm_compute; reflexivity|]. split; [exact e1_exact|].
  split; [apply val_is; vm_compute; reflexivity|apply res_is; vm_compute; reflexivity].
Qed.
(* the same with spaces, a new line, < and > and longer minus signs *)
Definition e1_text : pystr := lit "2 (3 + <1|2>)[3|10] s_123/5^2" ++ [10; 8722] ++ lit " 1 * " ++ [8722] ++ lit "3/14".
Example C51_partial_ex_spaced : written_as (written e1) e1_text /\ exists w, py_eval ops13 e1_text = Ok w /\ to_K w = Ok (g13 7).
Proof.
  split; [|apply res_is; vm_compute; reflexivity]. let t := eval vm_compute in (written e1) in change (written e1) with t. let t := eval vm_compute in e1_text in change e1_text with t.
  repeat first [apply wa_nil|apply wa_same|apply wa_lt|apply wa_gt|apply wa_minus|apply wa_space; [left; reflexivity|]|apply wa_space; [right; reflexivity|]].
Qed.
(* with the longer invariants: 2⟨1|(2+3)|4|15]tr5(1|2|3+4|5)^2(Δ_12|34|56-3tr(1|2))/(Ω_351Π_25tr5_1234) *)
Definition chain1 : inv := WChain true 1 (Slot true 2 [(false, 3)]) [Slot false 4 []] 15 false.
Definition trace1 : inv := WTr5 (Slot false 1 []) [Slot false 2 []; Slot false 3 [(false, 4)]; Slot false 5 []].
Definition trace2 : inv := WTr (Slot false 1 []) [Slot false 2 []].
Definition ops13w (s : pystr) : result GF13 :=
  if str_eqb s (inv_text chain1) then Ok (g13 7) else if str_eqb s (inv_text trace1) then Ok (g13 4) else if str_eqb s (inv_text (WDel 12 34 [56])) then Ok (g13 5)
  else if str_eqb s (inv_text trace2) then Ok (g13 9) else if str_eqb s (inv_text (WOm 351)) then Ok (g13 3) else if str_eqb s (inv_text (WPi 25)) then Ok (g13 2)
  else if str_eqb s (inv_text (WTr5n 1234)) then Ok (g13 12) else Err ValueError.
Definition val13w (a : inv) : option GF13 := match ops13w (inv_text a) with Ok x => Some x | Err _ => None end.
Definition e2 : expr :=
  Div (Jux (Jux (Jux (Num 2) (Inv chain1)) (Pow (Inv trace1) (Num 2))) (Par (Sub (Inv (WDel 12 34 [56])) (Jux (Num 3) (Inv trace2)))))
      (Par (Jux (Jux (Inv (WOm 351)) (Inv (WPi 25))) (Inv (WTr5n 1234)))).
Ltac oks := unfold chain1, trace1, trace2; cbn; unfold label; repeat split; repeat constructor; try lia; try discriminate.
Lemma e2_sum : sum e2.
Proof.
  unfold e2. repeat first
    [ apply sum_add | apply sum_sub | apply sum_term | apply term_mul | apply term_div | apply term_jux | apply term_factor | apply factor_neg | apply factor_pos
    | apply factor_pow | apply factor_atom | apply atom_num; lia | apply atom_inv; oks; fail | apply atom_par ].
  - apply (touch_num_inv []).
  - apply (touch_inv_inv [TNum 2]).
  - apply (touch_num_inv []).
  - apply (touch_num_par [TNum 2; TInv chain1; TInv trace1; TCaret]).
  - apply (touch_inv_inv []).
  - apply (touch_inv_inv [TInv (WOm 351)]).
Qed.
Lemma e2_exact : exact e2.
Proof. unfold e2. cbn [exact integral int_value andb]. repeat split; discriminate. Qed.
Example C51_partial_ex2 :
  written e2 = 50 :: inv_text chain1 ++ lit "tr5(1|2|3+4|5)^2(" ++ inv_text (WDel 12 34 [56]) ++ lit "-3tr(1|2))/(" ++ inv_text (WOm 351) ++ inv_text (WPi 25) ++ lit "tr5_1234)" /\
  sum e2 /\ ~ clash (symbols e2) /\ exact e2 /\
  value_of val13w e2 = Some (g13 11) /\ exists w, py_eval ops13w (written e2) = Ok w /\ to_K w = Ok (g13 11).
Proof.
  split; [reflexivity|]. split; [exact e2_sum|]. split; [apply clashb_ok; vm_compute; reflexivity|]. split; [exact e2_exact|].
  split; [apply val_is; vm_compute; reflexivity|apply res_is; vm_compute; reflexivity].
Qed.
(* without these conditions: a fraction is raised to a power as a whole *)
Theorem C51_power_of_fraction_refuted :
  exists (e : expr) (v w : GF13), sum e /\ exact e /\ e = Div (Mul x12 (Num 2)) (Pow (Num 3) (Num 2)) /\
  value_of val13 e = Some v /\ (exists x, py_eval ops13 (written e) = Ok x /\ to_K x = Ok w) /\ v <> w.
Proof.
  exists (Div (Mul x12 (Num 2)) (Pow (Num 3) (Num 2))), (g13 3), (g13 6).
  split; [unfold x12; lev|]. split; [cbn [exact integral andb x12 int_value]; repeat split; try discriminate; intros _ n H; injection H as <-; lia|].
  split; [reflexivity|]. split; [apply val_is; vm_compute; reflexivity|]. split; [apply res_is; vm_compute; reflexivity|fneq].
Qed.
Print Assumptions C51_power_of_fraction_refuted.
(* x/2/3 is x/(2/3) *)
Theorem C51_repeated_division_refuted :
  exists (e : expr) (v w : GF13), sum e /\ exact e /\ e = Div (Div x12 (Num 2)) (Num 3) /\
  value_of val13 e = Some v /\ (exists x, py_eval ops13 (written e) = Ok x /\ to_K x = Ok w) /\ v <> w.
Proof.
  exists (Div (Div x12 (Num 2)) (Num 3)), (g13 12), (g13 4).
  split; [unfold x12; lev|]. split; [cbn [exact integral andb x12 int_value]; repeat split; try discriminate|].
  split; [reflexivity|]. split; [apply val_is; vm_compute; reflexivity|]. split; [apply res_is; vm_compute; reflexivity|fneq].
Qed.
Print Assumptions C51_repeated_division_refuted.
(* x^12/5 is no python expression, and x^-2/3 is no power *)
Theorem C51_power_over_refuted :
  exists (e e' : expr) (v v' : GF13), sum e /\ sum e' /\ exact e /\ exact e' /\ e = Div (Pow x12 (Num 12)) (Num 5) /\ e' = Div (Pow x12 (Neg (Num 2))) (Num 3) /\
  value_of val13 e = Some v /\ value_of val13 e' = Some v' /\ py_eval ops13 (written e) = Err SyntaxError /\ py_eval ops13 (written e') = Err TypeError.
Proof.
  exists (Div (Pow x12 (Num 12)) (Num 5)), (Div (Pow x12 (Neg (Num 2))) (Num 3)), (g13 8), (g13 10).
  split; [unfold x12; lev|]. split; [unfold x12; lev|]. split; [cbn [exact integral andb x12 int_value]; repeat split; try discriminate|]. split; [cbn [exact integral andb x12 int_value]; repeat split; try discriminate|].
  split; [reflexivity|]. split; [reflexivity|]. split; [apply val_is; vm_compute; reflexivity|]. split; [apply val_is; vm_compute; reflexivity|]. split; ferr.
Qed.
Print Assumptions C51_power_over_refuted.
(* (1+1)/3 and 2^-1 become floating point numbers, which lose the exact value *)
Definition is_float (r : result (value GF13)) : bool := match r with Ok VFloat => true | _ => false end.
Lemma is_float_ok r : is_float r = true -> r = Ok VFloat. Proof. destruct r as [[| | |]|]; try discriminate. reflexivity. Qed.
Theorem C51_float_refuted :
  exists (e e' : expr) (v v' : GF13), sum e /\ sum e' /\ ~ clash (symbols e) /\ ~ clash (symbols e') /\ e = Div (Par (Add (Num 1) (Num 1))) (Num 3) /\ e' = Pow (Num 2) (Neg (Num 1)) /\
  value_of val13 e = Some v /\ value_of val13 e' = Some v' /\ py_eval ops13 (written e) = Ok VFloat /\ py_eval ops13 (written e') = Ok VFloat.
Proof.
  exists (Div (Par (Add (Num 1) (Num 1))) (Num 3)), (Pow (Num 2) (Neg (Num 1))), (g13 5), (g13 7).
  split; [lev|]. split; [lev|]. split; [apply clashb_ok; vm_compute; reflexivity|]. split; [apply clashb_ok; vm_compute; reflexivity|].
  split; [reflexivity|]. split; [reflexivity|]. split; [apply val_is; vm_compute; reflexivity|]. split; [apply val_is; vm_compute; reflexivity|]. split; apply is_float_ok; vm_compute; reflexivity.
Qed.
Print Assumptions C51_float_refuted.
(* forms the compute dispatcher knows (m_i, Δ_ijk and chains with any labels) that become no
   python expression here: the patterns for masses and for Δ without | are applied to what is
   already a call, and the one for |j+k| to the middle of a chain that starts with two digits *)
Theorem C51_wrapped_twice_refuted :
  exists s s' s'' : pystr, s = lit "m_1" /\ s' = 916 :: lit "_135" /\ s'' = 10216 :: lit "10|2+3|11]" /\
  py_parse s = lit "oPs('oPs('" ++ s ++ lit "')')" /\ py_parse s' = lit "oPs('oPs('" ++ s' ++ lit "')')" /\
  py_parse s'' = lit "oPs('" ++ 10216 :: lit "10*oPs('|2+3|')*11]')" /\
  forall (K : Fld) (oPs : pystr -> result K), py_eval oPs s = Err SyntaxError /\ py_eval oPs s' = Err SyntaxError /\ py_eval oPs s'' = Err SyntaxError.
Proof.
  exists (lit "m_1"), (916 :: lit "_135"), (10216 :: lit "10|2+3|11]"). split; [reflexivity|]. split; [reflexivity|]. split; [reflexivity|].
  split; [vm_compute; reflexivity|]. split; [vm_compute; reflexivity|]. split; [vm_compute; reflexivity|].
  intros K oPs. assert (X : forall s, ast_parse (py_parse s) = Err SyntaxError -> py_eval oPs s = Err SyntaxError) by (intros s E; unfold py_eval; rewrite E; reflexivity).
  repeat split; apply X; vm_compute; reflexivity.
Qed.
Print Assumptions C51_wrapped_twice_refuted.
