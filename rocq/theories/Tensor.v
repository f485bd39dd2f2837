(* Expressions with arrays: the rest of the expression grammar that _parse writes (matrix products,
   lists, numpy.block, numpy.transpose, subscripts) and their values, particles_eval.py:88-101,
   166-168, 174-251.  Numbers are as in Parse.v.
   Simplifications: arrays have two indices; a subscript is a pair of slices with bounds that are
   numbers or left out; a list is only an argument of numpy.block; calls of other functions
   are a SyntaxError; square roots are left out. *)
From Coq Require Import Ascii String.
From Coq Require Import List ZArith Bool.
From Verif Require Import Base Fld Particle Phase Compute Str Masses Parse Text.
Import ListNotations.
Open Scope Z_scope.
Open Scope res_scope.

(* identifiers; python takes the lunate epsilon (1013) for the letter epsilon; particles_eval.py:168, 175 *)
Definition in_name (c : Z) : bool := is_alnum c || (c =? 95) || (c =? 1013).
(* particles_eval.py:175 *)
Definition starts_name (c : Z) : bool := is_letter c || (c =? 1013).
(* the other tokens, particles_eval.py:175 *)
Definition is_wop (c : Z) : bool := is_op c || Parse.cls [91; 93; 58; 64; 46] c.
(* the tokens, with spaces between them; particles_eval.py:175 *)
Fixpoint wlex (fuel : nat) (s : pystr) : option (list ktok) :=
  match fuel, s with
  | O, _ => None
  | S _, [] => Some []
  | S n, c :: s' =>
      if is_digit c then
        let d := digits s in if literal_ok d then option_map (cons (KNum (number d))) (wlex n (skipn (length d) s)) else None
      else if starts_name c then let w := run in_name s in option_map (cons (KName w)) (wlex n (skipn (length w) s))
      else if c =? 39 then let w := until_quote s' in option_map (cons (KStr w)) (wlex n (skipn (length w + 2) s))
      else if c =? 32 then wlex n s'
      else match c =? 42, s' with
           | true, d :: s'' => if d =? 42 then option_map (cons KPow) (wlex n s'') else option_map (cons (KOp c)) (wlex n s')
           | _, _ => if is_wop c then option_map (cons (KOp c)) (wlex n s') else None
           end
  end.
(* the operators, particles_eval.py:21-23 *)
Inductive bop := BAdd | BSub | BMul | BDiv | BPow | BMat.
(* the two functions of numpy that _parse writes, particles_eval.py:153, 163 *)
Inductive nfun := NBlock | NTranspose.
(* a slice with bounds that may be missing; particles_eval.py:229-241 *)
Definition bounds := (option Z * option Z)%type.
(* particles_eval.py:178-251 *)
Inductive wast :=
| WNum (z : Z) | WBin (o : bop) (a b : wast) | WNeg (a : wast) | WPos (a : wast)
| WoPs (arg : pystr) | WFrac (n d : Z)
| WEps                                    (* the array LeviCivita, particles_eval.py:168, 222-229 *)
| WList (l : list wast)                   (* particles_eval.py:188-189 *)
| WNumpy (f : nfun) (a : wast)            (* particles_eval.py:203-211 *)
| WSub (a : wast) (i j : bounds).         (* particles_eval.py:231-248 *)
(* a slice, and what is left; particles_eval.py:175, 231-241 *)
Definition w_slice (ts : list ktok) : option (bounds * list ktok) :=
  let '(lo, r) := match ts with KNum z :: r => (Some z, r) | _ => (None, ts) end in
  match r with
  | KOp c :: r' => if c =? 58 then match r' with KNum z :: r'' => Some ((lo, Some z), r'') | _ => Some ((lo, None), r') end else None
  | _ => None
  end.
(* [slice, slice], particles_eval.py:175, 231-244 *)
Definition w_index (ts : list ktok) : option (bounds * bounds * list ktok) :=
  match w_slice ts with
  | Some (i, KOp c :: r) =>
      if c =? 44 then match w_slice r with Some (j, KOp k :: r') => if k =? 93 then Some ((i, j), r') else None | _ => None end else None
  | _ => None
  end.
(* numpy.name( , particles_eval.py:203-211 *)
Definition w_fun (w : pystr) : option nfun := if str_eqb w (lit "block") then Some NBlock else if str_eqb w (lit "transpose") then Some NTranspose else None.
(* subscripts behind an expression, particles_eval.py:175, 231-244 *)
Fixpoint w_trailers (fuel : nat) (a : wast) (ts : list ktok) : option (wast * list ktok) :=
  match fuel with
  | O => None
  | S f =>
      match ts with
      | KOp c :: r => if c =? 91 then match w_index r with Some (i, j, r') => w_trailers f (WSub a i j) r' | None => None end else Some (a, ts)
      | _ => Some (a, ts)
      end
  end.
(* the expression part of python's grammar, particles_eval.py:175 *)
Fixpoint w_sum (fuel : nat) (ts : list ktok) : option (wast * list ktok) :=
  match fuel with
  | O => None
  | S f => match w_term f ts with Some (a, r) => w_sums f a r | None => None end
  end
with w_sums (fuel : nat) (a : wast) (ts : list ktok) : option (wast * list ktok) :=
  match fuel with
  | O => None
  | S f =>
      match ts with
      | KOp c :: r =>
          if c =? 43 then match w_term f r with Some (b, r') => w_sums f (WBin BAdd a b) r' | None => None end
          else if c =? 45 then match w_term f r with Some (b, r') => w_sums f (WBin BSub a b) r' | None => None end
          else Some (a, ts)
      | _ => Some (a, ts)
      end
  end
with w_term (fuel : nat) (ts : list ktok) : option (wast * list ktok) :=
  match fuel with
  | O => None
  | S f => match w_factor f ts with Some (a, r) => w_terms f a r | None => None end
  end
with w_terms (fuel : nat) (a : wast) (ts : list ktok) : option (wast * list ktok) :=
  match fuel with
  | O => None
  | S f =>
      match ts with
      | KOp c :: r =>
          if c =? 42 then match w_factor f r with Some (b, r') => w_terms f (WBin BMul a b) r' | None => None end
          else if c =? 47 then match w_factor f r with Some (b, r') => w_terms f (WBin BDiv a b) r' | None => None end
          else if c =? 64 then match w_factor f r with Some (b, r') => w_terms f (WBin BMat a b) r' | None => None end
          else Some (a, ts)
      | _ => Some (a, ts)
      end
  end
with w_factor (fuel : nat) (ts : list ktok) : option (wast * list ktok) :=
  match fuel with
  | O => None
  | S f =>
      match ts with
      | KOp c :: r =>
          if c =? 43 then match w_factor f r with Some (a, r') => Some (WPos a, r') | None => None end
          else if c =? 45 then match w_factor f r with Some (a, r') => Some (WNeg a, r') | None => None end
          else w_power f ts
      | _ => w_power f ts
      end
  end
with w_power (fuel : nat) (ts : list ktok) : option (wast * list ktok) :=
  match fuel with
  | O => None
  | S f =>
      match w_primary f ts with
      | Some (a, KPow :: r) => match w_factor f r with Some (b, r') => Some (WBin BPow a b, r') | None => None end
      | x => x
      end
  end
with w_primary (fuel : nat) (ts : list ktok) : option (wast * list ktok) :=
  match fuel with
  | O => None
  | S f => match w_atom f ts with Some (a, r) => w_trailers f a r | None => None end
  end
with w_atom (fuel : nat) (ts : list ktok) : option (wast * list ktok) :=
  match fuel with
  | O => None
  | S f =>
      match ts with
      | KNum z :: r => Some (WNum z, r)
      | KName w :: r =>
          if str_eqb w (lit "oPs") then
            match r with KOp l :: KStr arg :: KOp c :: r' => if (l =? 40) && (c =? 41) then Some (WoPs arg, r') else None | _ => None end
          else if str_eqb w (lit "Fraction") then
            match r with KOp l :: KNum n :: KOp k :: KNum d :: KOp c :: r' => if (l =? 40) && (k =? 44) && (c =? 41) then Some (WFrac n d, r') else None | _ => None end
          else if str_eqb w [1013] then Some (WEps, r)
          else if str_eqb w (lit "numpy") then
            match r with
            | KOp p :: KName g :: KOp l :: r' =>
                match w_fun g with
                | Some h => if (p =? 46) && (l =? 40) then
                              match w_sum f r' with Some (a, KOp c :: r'') => if c =? 41 then Some (WNumpy h a, r'') else None | _ => None end
                            else None
                | None => None
                end
            | _ => None
            end
          else None
      | KOp l :: r =>
          if l =? 40 then match w_sum f r with Some (a, KOp c :: r') => if c =? 41 then Some (a, r') else None | _ => None end
          else if l =? 91 then match w_list f r with Some (l, r') => Some (WList l, r') | None => None end
          else None
      | _ => None
      end
  end
with w_list (fuel : nat) (ts : list ktok) : option (list wast * list ktok) :=
  match fuel with
  | O => None
  | S f =>
      match w_sum f ts with
      | Some (a, KOp c :: r) =>
          if c =? 93 then Some ([a], r)
          else if c =? 44 then match w_list f r with Some (l, r') => Some (a :: l, r') | None => None end
          else None
      | _ => None
      end
  end.
Definition wast_parse (s : pystr) : result wast := (* particles_eval.py:175 *)
  match wlex (S (length s)) s with
  | Some ts => match w_sum (12 * length ts + 12) ts with Some (a, []) => Ok a | _ => Err SyntaxError end
  | None => Err SyntaxError
  end.

Section Tensor.
Context {K : Fld}.
(* an array with two indices, as its rows; particles_eval.py:167-248 *)
Definition arr := list (list (value K)).
(* a number, an array or a list of them; particles_eval.py:178-248 *)
Inductive wval := XNum (v : value K) | XArr (m : arr) | XList (l : list wval).
(* the number of columns; all rows have the same length; particles_eval.py:167-248 *)
Definition width (m : arr) : nat := match m with r :: _ => length r | [] => O end.
(* f on pairs, in order; particles_eval.py:182-183 *)
Fixpoint zipM {A B C} (f : A -> B -> result C) (a : list A) (b : list B) : result (list C) :=
  match a, b with
  | x :: a', y :: b' => z <-? f x y ;; l <-? zipM f a' b' ;; Ok (z :: l)
  | [], [] => Ok []
  | _, _ => Err ValueError
  end.
(* numpy repeats an axis of length one; particles_eval.py:182-183 *)
Definition stretch {A} (n : nat) (l : list A) : list A := match l with [x] => repeat x n | _ => l end.
Definition casted {A B C} (f : A -> B -> result C) (a : list A) (b : list B) : result (list C) :=
  zipM f (stretch (length b) a) (stretch (length a) b).
(* an operator that acts entry by entry; particles_eval.py:21-23, 182-183 *)
Definition entrywise (f : value K -> value K -> result (value K)) (v w : wval) : result wval :=
  match v, w with
  | XNum a, XNum b => rmap XNum (f a b)
  | XNum a, XArr m => rmap XArr (rmapM (rmapM (f a)) m)
  | XArr m, XNum b => rmap XArr (rmapM (rmapM (fun x => f x b)) m)
  | XArr m, XArr n => rmap XArr (casted (casted f) m n)
  | _, _ => Err TypeError
  end.
(* a0*b0 + a1*b1 + ..., particles_eval.py:23 *)
Definition row_col (a b : list (value K)) : result (value K) :=
  l <-? zipM v_mul a b ;;
  match l with
  | x :: l' => fold_left (fun acc y => x <-? acc ;; v_add x y) l' (Ok x)
  | [] => Ok (VInt 0)
  end.
(* the columns, particles_eval.py:23, 153 *)
Definition columns (m : arr) : arr := map (fun j => map (fun r => nth j r (VInt 0)) m) (seq 0 (width m)).
(* operator.matmul, particles_eval.py:23 *)
Definition matmul (v w : wval) : result wval :=
  match v, w with
  | XArr m, XArr n =>
      if Nat.eqb (width m) (length n) then rmap XArr (rmapM (fun r => rmapM (row_col r) (columns n)) m) else Err ValueError
  | XNum _, _ | _, XNum _ => Err ValueError
  | _, _ => Err TypeError
  end.
(* a number as an array, particles_eval.py:203-211 *)
Definition as_arr (v : wval) : result arr := match v with XNum x => Ok [[x]] | XArr m => Ok m | XList _ => Err ValueError end.
(* arrays side by side; particles_eval.py:203-211 *)
Definition hcat (l : list arr) : result arr :=
  match l with
  | [] => Err ValueError
  | m :: l' => fold_left (fun acc n => m <-? acc ;; zipM (fun r q => Ok (r ++ q)) m n) l' (Ok m)
  end.
(* arrays one below the other; particles_eval.py:203-211 *)
Definition vcat (l : list arr) : result arr :=
  match l with
  | [] => Err ValueError
  | m :: l' => if forallb (fun n => Nat.eqb (width n) (width m)) l' then Ok (concat l) else Err ValueError
  end.
(* numpy.block: a row of arrays, or a column of rows of arrays; particles_eval.py:203-211 *)
Definition block (v : wval) : result wval :=
  match v with
  | XList ((XList _ :: _) as l) =>
      rows <-? rmapM (fun x => match x with XList r => a <-? rmapM as_arr r ;; hcat a | _ => Err ValueError end) l ;;
      rmap XArr (vcat rows)
  | XList l => a <-? rmapM as_arr l ;; rmap XArr (hcat a)
  | XArr m => Ok (XArr m)
  | XNum x => Ok (XNum x)
  end.
(* particles_eval.py:153 *)
Definition transpose (v : wval) : result wval := match v with XArr m => Ok (XArr (columns m)) | XNum x => Ok (XNum x) | XList _ => Err TypeError end.
(* -x for arrays, particles_eval.py:185-186 *)
Definition negate (v : wval) : result wval :=
  match v with XNum x => Ok (XNum (v_neg x)) | XArr m => Ok (XArr (map (map v_neg) m)) | XList _ => Err TypeError end.
(* a slice of a list, with bounds that are not negative; particles_eval.py:231-248 *)
Definition cut {A} (b : bounds) (l : list A) : list A :=
  let lo := match fst b with Some z => Z.to_nat z | None => O end in
  let hi := match snd b with Some z => Z.to_nat z | None => length l end in
  firstn (hi - lo) (skipn lo l).
(* particles_eval.py:231-248 *)
Definition subscript (v : wval) (i j : bounds) : result wval := match v with XArr m => Ok (XArr (map (cut j) (cut i m))) | _ => Err TypeError end.
(* tools.py:19 *)
Definition eps : arr := [[VInt 0; VInt 1]; [VInt (-1); VInt 0]].
Definition binop (o : bop) : wval -> wval -> result wval := (* particles_eval.py:21-23 *)
  match o with
  | BAdd => entrywise v_add | BSub => entrywise v_sub | BMul => entrywise v_mul | BDiv => entrywise v_div | BPow => entrywise v_pow
  | BMat => matmul
  end.
Section Node.
Variable oPs : pystr -> result wval.
(* _eval_node, particles_eval.py:178-251 *)
Fixpoint weval (a : wast) : result wval :=
  match a with
  | WNum z => Ok (XNum (VInt z))
  | WBin o a b => x <-? weval a ;; y <-? weval b ;; binop o x y
  | WNeg a => x <-? weval a ;; negate x
  | WPos a => weval a
  | WoPs arg => oPs arg
  | WFrac n d => if d =? 0 then Err ZeroDivisionError else Ok (XNum (frac (QArith_base.Qdiv (QArith_base.inject_Z n) (QArith_base.inject_Z d))))
  | WEps => Ok (XArr eps)
  | WList l => rmap XList ((fix go l := match l with [] => Ok [] | a :: l' => x <-? weval a ;; r <-? go l' ;; Ok (x :: r) end) l)
  | WNumpy NBlock a => x <-? weval a ;; block x
  | WNumpy NTranspose a => x <-? weval a ;; transpose x
  | WSub a i j => x <-? weval a ;; subscript x i j
  end.
(* as_scalar_if_scalar, particles_eval.py:90-101 *)
Definition pop (v : wval) : wval := match v with XArr [[x]] => XNum x | _ => v end.
(* Particles_Eval._eval, particles_eval.py:166-168 *)
Definition weval_text (s : pystr) : result wval := a <-? wast_parse (py_parse s) ;; rmap pop (weval a).
End Node.
(* what compute returns, as a number or an array; particles_compute.py:77-276 *)
Definition of_val (v : val K) : wval :=
  match v with
  | VS x => XNum (VElt x)
  | VRow v => XArr [[VElt (e0 v); VElt (e1 v)]]
  | VCol v => XArr [[VElt (e0 v)]; [VElt (e1 v)]]
  | VMat m => XArr [[VElt (m00 m); VElt (m01 m)]; [VElt (m10 m); VElt (m11 m)]]
  end.
(* Particles.compute on a text, particles_compute.py:77-276, and __call__, particles.py:86-87, with
   arrays in the expressions *)
Fixpoint compute_wide (fuel : nat) (s : ps K) (A : dict (@mval K)) (t : pystr) : result wval :=
  match fuel with
  | O => Err RecursionError
  | S f =>
      t' <-? unbold t ;;
      match classify t' with
      | TInv e => rmap of_val (compute s e)
      | TErr x => Err x
      | TMass =>
          match dict_get t' A with
          | None => Err AttributeError
          | Some (MNum x) => Ok (XNum (VElt x))
          | Some (MStr t'') => compute_wide f s A t''
          end
      | TExpr => weval_text (compute_wide f s A) t
      end
  end.
End Tensor.
Arguments wval K : clear implicits. Arguments arr K : clear implicits.
