(* What arithmetic expressions mean, independently of how they are evaluated. *)
From Coq Require Import Ascii String.
From Coq Require Import List ZArith Bool.
From Coq Require InitialRing.
From Verif Require Import Base Fld Str.
Import ListNotations.
Open Scope Z_scope.

(* a sum of labels with signs, in parentheses or not *)
Inductive slot := Slot (par : bool) (i : Z) (l : list (bool * Z)).
Definition signed (x : bool * Z) : pystr := (if fst x then 45 else 43) :: dec (snd x).
Definition slot_text (m : slot) : pystr :=
  match m with Slot p i l => (if p then [40] else []) ++ dec i ++ concat (map signed l) ++ (if p then [41] else []) end.
Definition barred (u : pystr) : pystr := 124 :: u.
(* an invariant: ⟨i|j⟩, [i|j], s_n, a chain such as ⟨i|(j+k)|l], tr(...), tr5(...), tr5_n, Ω_n, Π_n or Δ_n|m|... *)
Inductive inv :=
| Ang (i j : Z) | Sq (i j : Z) | Man (n : Z)
| WChain (l : bool) (i : Z) (m : slot) (ms : list slot) (j : Z) (r : bool)
| WTr (m : slot) (ms : list slot) | WTr5 (m : slot) (ms : list slot) | WTr5n (n : Z) | WOm (n : Z) | WPi (n : Z)
| WDel (n m : Z) (ns : list Z).
Definition slots (ms : list slot) : pystr := concat (map (fun m => barred (slot_text m)) ms).
Definition inv_text (a : inv) : pystr :=
  match a with
  | Ang i j => 10216 :: dec i ++ 124 :: dec j ++ [10217]
  | Sq i j => 91 :: dec i ++ 124 :: dec j ++ [93]
  | Man n => lit "s_" ++ dec n
  | WChain l i m ms j r => (if l then 10216 else 91) :: dec i ++ slots (m :: ms) ++ 124 :: dec j ++ [if r then 10217 else 93]
  | WTr m ms => lit "tr(" ++ slot_text m ++ slots ms ++ [41]
  | WTr5 m ms => lit "tr5(" ++ slot_text m ++ slots ms ++ [41]
  | WTr5n n => lit "tr5_" ++ dec n
  | WOm n => 937 :: 95 :: dec n
  | WPi n => 928 :: 95 :: dec n
  | WDel n m ns => 916 :: 95 :: dec n ++ concat (map (fun k => barred (dec k)) (m :: ns))
  end.
(* in the longer forms the labels have one digit, and in parentheses there are at least two of them *)
Definition label (i : Z) : Prop := 0 <= i <= 9.
Definition slot_ok (m : slot) : Prop := match m with Slot p i l => label i /\ Forall (fun x => label (snd x)) l /\ (p = true -> l <> []) end.
Definition bare (m : slot) : Prop := match m with Slot p _ _ => p = false end.
Definition inv_ok (a : inv) : Prop :=
  match a with
  | Ang i j | Sq i j => 0 <= i /\ 0 <= j
  | Man n | WTr5n n | WOm n | WPi n => 0 <= n
  | WChain _ i m ms j _ => label i /\ Forall slot_ok (m :: ms) /\ 0 <= j
  | WTr m ms | WTr5 m ms => Forall slot_ok (m :: ms) /\ Forall bare (m :: ms)
  | WDel n m ns => Forall (fun k => 0 <= k <= 9999) (n :: m :: ns)
  end.
(* written with a digit at the end *)
Definition digit_end (a : inv) : bool := match a with Man _ | WTr5n _ | WOm _ | WPi _ | WDel _ _ _ => true | _ => false end.

(* an expression as it is written; Jux is a product without a sign *)
Inductive expr :=
| Num (n : Z) | Inv (a : inv) | Par (a : expr) | Pow (a b : expr) | Neg (a : expr) | Pos (a : expr)
| Mul (a b : expr) | Jux (a b : expr) | Div (a b : expr) | Add (a b : expr) | Sub (a b : expr).

Inductive tok := TNum (n : Z) | TInv (a : inv) | TL | TR | TPlus | TMinus | TStar | TSlash | TCaret.
Definition tok_text (t : tok) : pystr :=
  match t with
  | TNum n => dec n | TInv a => inv_text a | TL => [40] | TR => [41]
  | TPlus => [43] | TMinus => [45] | TStar => [42] | TSlash => [47] | TCaret => [94]
  end.
(* the symbols, with or without the signs of the products written as Jux *)
Fixpoint toks (jux : list tok) (e : expr) : list tok :=
  match e with
  | Num n => [TNum n]
  | Inv a => [TInv a]
  | Par a => TL :: toks jux a ++ [TR]
  | Pow a b => toks jux a ++ TCaret :: toks jux b
  | Neg a => TMinus :: toks jux a
  | Pos a => TPlus :: toks jux a
  | Mul a b => toks jux a ++ TStar :: toks jux b
  | Jux a b => toks jux a ++ jux ++ toks jux b
  | Div a b => toks jux a ++ TSlash :: toks jux b
  | Add a b => toks jux a ++ TPlus :: toks jux b
  | Sub a b => toks jux a ++ TMinus :: toks jux b
  end.
Definition written (e : expr) : pystr := concat (map tok_text (toks [] e)).
Definition symbols (e : expr) : list tok := toks [TStar] e.

(* the same text with spaces and new lines anywhere, other angle brackets or a longer minus sign *)
Inductive written_as : pystr -> pystr -> Prop :=
| wa_nil : written_as [] []
| wa_same c t u : written_as t u -> written_as (c :: t) (c :: u)
| wa_space c t u : c = 32 \/ c = 10 -> written_as t u -> written_as t (c :: u)
| wa_lt t u : written_as t u -> written_as (10216 :: t) (60 :: u)
| wa_gt t u : written_as t u -> written_as (10217 :: t) (62 :: u)
| wa_minus t u : written_as t u -> written_as (45 :: t) (8722 :: u).

(* ---- the usual precedence: which expressions need no further parentheses ---- *)
Inductive atom : expr -> Prop :=
| atom_num n : 0 <= n -> atom (Num n)
| atom_inv a : inv_ok a -> atom (Inv a)
| atom_par a : sum a -> atom (Par a)
with factor : expr -> Prop :=
| factor_atom a : atom a -> factor a
| factor_neg a : factor a -> factor (Neg a)          (* -a^b is -(a^b) *)
| factor_pos a : factor a -> factor (Pos a)
| factor_pow a b : atom a -> factor b -> factor (Pow a b)       (* a^b^c is a^(b^c) *)
with term : expr -> Prop :=
| term_factor a : factor a -> term a
| term_mul a b : term a -> factor b -> term (Mul a b)           (* a/b*c is (a/b)*c *)
| term_div a b : term a -> factor b -> term (Div a b)
| term_jux a b : term a -> factor b -> may_touch (toks [] a) (toks [] b) -> term (Jux a b)
with sum : expr -> Prop :=
| sum_term a : term a -> sum a
| sum_add a b : sum a -> term b -> sum (Add a b)
| sum_sub a b : sum a -> term b -> sum (Sub a b)
(* two factors may be written next to each other if the second starts with no sign and not
   both touching symbols are made of digits *)
with may_touch : list tok -> list tok -> Prop :=
| touch_par l r : may_touch (l ++ [TR]) (TL :: r)
| touch_par_num l r n : may_touch (l ++ [TR]) (TNum n :: r)
| touch_par_inv l r a : may_touch (l ++ [TR]) (TInv a :: r)
| touch_num_par l r n : may_touch (l ++ [TNum n]) (TL :: r)
| touch_num_inv l r n a : may_touch (l ++ [TNum n]) (TInv a :: r)
| touch_inv_par l r a : may_touch (l ++ [TInv a]) (TL :: r)
| touch_inv_inv l r a b : may_touch (l ++ [TInv a]) (TInv b :: r)
| touch_two_num l r a n : digit_end a = false -> may_touch (l ++ [TInv a]) (TNum n :: r).

(* ---- the usual value ---- *)
(* built from whole numbers without division *)
Fixpoint integral (e : expr) : bool :=
  match e with
  | Num _ => true | Inv _ => false | Par a | Neg a | Pos a => integral a
  | Pow a b => integral a && integral b
  | Mul a b | Jux a b | Add a b | Sub a b => integral a && integral b
  | Div _ _ => false
  end.
Definition lift_opt {A B} (f : A -> A -> option B) (x y : option A) : option B := match x, y with Some a, Some b => f a b | _, _ => None end.
Fixpoint int_value (e : expr) : option Z :=
  match e with
  | Num n => Some n
  | Inv _ | Div _ _ => None
  | Par a | Pos a => int_value a
  | Neg a => option_map Z.opp (int_value a)
  | Pow a b => lift_opt (fun x n => if n <? 0 then None else Some (x ^ n)) (int_value a) (int_value b)
  | Mul a b | Jux a b => lift_opt (fun x y => Some (x * y)) (int_value a) (int_value b)
  | Add a b => lift_opt (fun x y => Some (x + y)) (int_value a) (int_value b)
  | Sub a b => lift_opt (fun x y => Some (x - y)) (int_value a) (int_value b)
  end.
Section Value.
Context {K : Fld}.
Variable invariant : inv -> option K.
Definition in_field (z : Z) : K := InitialRing.gen_phiZ f0 f1 fadd fmul fopp z.
Fixpoint times (x : K) (n : nat) : K := match n with O => f1 | S n' => (x * times x n')%fld end.
Definition over (x y : K) : option K := if feqb y f0 then None else Some (x / y)%fld.
(* whole powers, the negative ones for what is not zero *)
Definition to_the (x : K) (n : Z) : option K := if n <? 0 then over f1 (times x (Z.to_nat (- n))) else Some (times x (Z.to_nat n)).
Fixpoint value_of (e : expr) : option K :=
  match e with
  | Num n => Some (in_field n)
  | Inv a => invariant a
  | Par a | Pos a => value_of a
  | Neg a => option_map fopp (value_of a)
  | Pow a b => match value_of a, int_value b with Some x, Some n => to_the x n | _, _ => None end
  | Mul a b | Jux a b => lift_opt (fun x y => Some (x * y)%fld) (value_of a) (value_of b)
  | Div a b => lift_opt over (value_of a) (value_of b)
  | Add a b => lift_opt (fun x y => Some (x + y)%fld) (value_of a) (value_of b)
  | Sub a b => lift_opt (fun x y => Some (x - y)%fld) (value_of a) (value_of b)
  end.
End Value.

(* ---- where whole numbers next to a / are taken together first ---- *)
Definition sign (t : tok) : Prop := t = TPlus \/ t = TMinus.
Inductive clash : list tok -> Prop :=
| clash_div l s a b r : Forall sign s -> clash (l ++ TSlash :: s ++ TNum a :: TSlash :: TNum b :: r)       (* x/2/3 *)
| clash_sign l s a b r : Forall sign s -> s <> [] -> clash (l ++ TCaret :: s ++ TNum a :: TSlash :: TNum b :: r)  (* x^-2/3 *)
| clash_pow l a b r : 10 <= a -> clash (l ++ TCaret :: TNum a :: TSlash :: TNum b :: r)                  (* x^12/5 *)
| clash_exp l a b r : (forall l', l <> l' ++ [TCaret]) -> clash (l ++ TNum a :: TSlash :: TNum b :: TCaret :: r).  (* 2/3^2 *)
(* whole numbers divided by whole numbers only as a number over a number, and not raised to
   negative powers: python would go over to floating point numbers *)
Fixpoint exact (e : expr) : Prop :=
  match e with
  | Num _ | Inv _ => True
  | Par a | Neg a | Pos a => exact a
  | Mul a b | Jux a b | Add a b | Sub a b => exact a /\ exact b
  | Pow a b => exact a /\ exact b /\ (integral a = true -> forall n, int_value b = Some n -> 0 <= n)
  | Div a b => exact a /\ exact b /\
      (integral a = true -> integral b = true ->
       (exists n, b = Num n) /\ exists l m, symbols a = l ++ [TNum m] /\ forall l', l <> l' ++ [TCaret])
  end.
