(* Evaluation of the closed formulas for s_ijk and Delta_ijk (particles_set_pair.py:900,
   DoubleCollinearLimit_D_and_S_a.py, DoubleCollinearLimit_D_and_S_e.py) from their text: a lexer
   and a parser for the arithmetic of python with names and mpmath.sqrt, and the values of
   Parse.v. *)
From Coq Require Import Ascii String.
From Coq Require Import List ZArith Bool.
From Verif Require Import Base Fld Str Parse ClosedText.
Import ListNotations.
Open Scope Z_scope.

(* a name, possibly dotted; DoubleCollinearLimit_D_and_S_e.py:3-4 *)
Fixpoint dotted (s : pystr) : pystr := match s with c :: s' => if is_alnum c || (c =? 46) then c :: dotted s' else [] | [] => [] end.
(* the tokens; DoubleCollinearLimit_D_and_S_e.py:4 *)
Fixpoint ftokens (fuel : nat) (s : pystr) : option (list ktok) :=
  match fuel, s with
  | O, _ => None
  | S _, [] => Some []
  | S n, c :: s' =>
      if is_digit c then let d := digits s in if literal_ok d then option_map (cons (KNum (number d))) (ftokens n (skipn (length d) s)) else None
      else if is_letter c then let w := dotted s in option_map (cons (KName w)) (ftokens n (skipn (length w) s))
      else match c =? 42, s' with
           | true, d :: s'' => if d =? 42 then option_map (cons KPow) (ftokens n s'') else option_map (cons (KOp c)) (ftokens n s')
           | _, _ => if is_op c then option_map (cons (KOp c)) (ftokens n s') else None
           end
  end.
(* expressions; DoubleCollinearLimit_D_and_S_e.py:4 *)
Inductive fexpr :=
| FNum (z : Z) | FName (w : pystr) | FAdd (a b : fexpr) | FSub (a b : fexpr) | FMul (a b : fexpr) | FDiv (a b : fexpr) | FPow (a b : fexpr)
| FNeg (a : fexpr) | FSqrt (a : fexpr).
(* sums, terms, factors, powers and atoms of python's grammar, without unary +;
   DoubleCollinearLimit_D_and_S_e.py:4 *)
Fixpoint f_sum (fuel : nat) (ts : list ktok) : option (fexpr * list ktok) :=
  match fuel with
  | O => None
  | S f => match f_term f ts with Some (a, r) => f_sums f a r | None => None end
  end
with f_sums (fuel : nat) (a : fexpr) (ts : list ktok) : option (fexpr * list ktok) :=
  match fuel with
  | O => None
  | S f =>
      match ts with
      | KOp c :: r =>
          if c =? 43 then match f_term f r with Some (b, r') => f_sums f (FAdd a b) r' | None => None end
          else if c =? 45 then match f_term f r with Some (b, r') => f_sums f (FSub a b) r' | None => None end
          else Some (a, ts)
      | _ => Some (a, ts)
      end
  end
with f_term (fuel : nat) (ts : list ktok) : option (fexpr * list ktok) :=
  match fuel with
  | O => None
  | S f => match f_factor f ts with Some (a, r) => f_terms f a r | None => None end
  end
with f_terms (fuel : nat) (a : fexpr) (ts : list ktok) : option (fexpr * list ktok) :=
  match fuel with
  | O => None
  | S f =>
      match ts with
      | KOp c :: r =>
          if c =? 42 then match f_factor f r with Some (b, r') => f_terms f (FMul a b) r' | None => None end
          else if c =? 47 then match f_factor f r with Some (b, r') => f_terms f (FDiv a b) r' | None => None end
          else Some (a, ts)
      | _ => Some (a, ts)
      end
  end
with f_factor (fuel : nat) (ts : list ktok) : option (fexpr * list ktok) :=
  match fuel with
  | O => None
  | S f =>
      match ts with
      | KOp c :: r =>
          if c =? 45 then match f_factor f r with Some (a, r') => Some (FNeg a, r') | None => None end
          else f_power f ts
      | _ => f_power f ts
      end
  end
with f_power (fuel : nat) (ts : list ktok) : option (fexpr * list ktok) :=
  match fuel with
  | O => None
  | S f =>
      match f_atom f ts with
      | Some (a, KPow :: r) => match f_factor f r with Some (b, r') => Some (FPow a b, r') | None => None end
      | x => x
      end
  end
with f_atom (fuel : nat) (ts : list ktok) : option (fexpr * list ktok) :=
  match fuel with
  | O => None
  | S f =>
      match ts with
      | KNum z :: r => Some (FNum z, r)
      | KName w :: r =>
          if str_eqb w (lit "mpmath.sqrt") then
            match r with
            | KOp l :: r =>
                if l =? 40 then
                  match f_sum f r with
                  | Some (a, KOp c :: r') => if c =? 41 then Some (FSqrt a, r') else None
                  | _ => None
                  end
                else None
            | _ => None
            end
          else Some (FName w, r)
      | KOp l :: r =>
          if l =? 40 then
            match f_sum f r with
            | Some (a, KOp c :: r') => if c =? 41 then Some (a, r') else None
            | _ => None
            end
          else None
      | _ => None
      end
  end.
(* DoubleCollinearLimit_D_and_S_e.py:4 *)
Definition formula (s : pystr) : result fexpr :=
  match ftokens (S (length s)) s with
  | Some ts => match f_sum (6 * length ts + 6) ts with Some (a, []) => Ok a | _ => Err SyntaxError end
  | None => Err SyntaxError
  end.

Section Value.
Context {K : Fld}.
Open Scope res_scope.
(* mpmath.sqrt, DoubleCollinearLimit_D_and_S_e.py:4.  Simplification: the square root of the
   field; an element that has none is a ValueError. *)
Definition f_sqrt (v : value K) : result (value K) := x <-? to_K v ;; match fsqrt x with Some y => Ok (VElt y) | None => Err ValueError end.
(* the value of an expression, DoubleCollinearLimit_D_and_S_e.py:4; an unknown name is a
   NameError *)
Fixpoint fvalue (env : pystr -> option K) (a : fexpr) : result (value K) :=
  match a with
  | FNum z => Ok (VInt z)
  | FName w => match env w with Some x => Ok (VElt x) | None => Err OtherException end
  | FAdd a b => x <-? fvalue env a ;; y <-? fvalue env b ;; v_add x y
  | FSub a b => x <-? fvalue env a ;; y <-? fvalue env b ;; v_sub x y
  | FMul a b => x <-? fvalue env a ;; y <-? fvalue env b ;; v_mul x y
  | FDiv a b => x <-? fvalue env a ;; y <-? fvalue env b ;; v_div x y
  | FPow a b => x <-? fvalue env a ;; y <-? fvalue env b ;; v_pow x y
  | FNeg a => rmap v_neg (fvalue env a)
  | FSqrt a => x <-? fvalue env a ;; f_sqrt x
  end.
(* the parameters a, b, ..., p, Y, X; DoubleCollinearLimit_D_and_S_e.py:3 *)
Definition parameters (args : list K) (Y X : K) (w : pystr) : option K :=
  match w with
  | [c] => if (97 <=? c) && (c <=? 112) then nth_error args (Z.to_nat (c - 97)) else if c =? 89 then Some Y else if c =? 88 then Some X else None
  | _ => None
  end.
(* the value of such a function, DoubleCollinearLimit_D_and_S_e.py:3-4 *)
Definition expression (text : pystr) (args : list K) (Y X : K) : result K :=
  e <-? formula text ;; v <-? fvalue (parameters args Y X) e ;; to_K v.
(* DoubleCollinearLimit_D_and_S_a.py:3-4 *)
Definition expression_for_a : list K -> K -> K -> result K := expression text_a.
(* DoubleCollinearLimit_D_and_S_e.py:3-4 *)
Definition expression_for_e : list K -> K -> K -> result K := expression text_e.
End Value.
