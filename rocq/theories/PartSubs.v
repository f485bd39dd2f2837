(* Particles.subs, lips/particles.py:235-280, over a finite field.  Components of spinors are numbers of
   the field or expressions of sympy.  Simplifications: expressions are polynomials with integer
   coefficients in expanded form, as sympy.poly(...).as_expr() returns them; every leg has spinors; the
   values of the dictionary contain none of its keys, so that the order of replacement does not matter. *)
From Coq Require Import List ZArith Bool Ring Field.
From Verif Require Import Base Fld.
Import ListNotations.

(* a product of powers of symbols, in the order of the symbols; the exponents are positive; particles.py:244 *)
Definition mono := list (Z * nat).
(* terms with different products and coefficients other than 0; particles.py:244 *)
Definition mpoly := list (Z * mono).
(* products of products; sympy, used in particles.py:239 *)
Fixpoint mono_ins (x : Z) (n : nat) (m : mono) : mono :=
  match m with
  | [] => [(x, n)]
  | (y, k) :: t => if (x =? y)%Z then (x, (n + k)%nat) :: t else if (x <? y)%Z then (x, n) :: m else (y, k) :: mono_ins x n t
  end.
(* sympy, used in particles.py:239 *)
Definition mono_mul (a b : mono) : mono := fold_right (fun xn m => mono_ins (fst xn) (snd xn) m) b a.
(* == of products; sympy, used in particles.py:239 *)
Fixpoint mono_eqb (a b : mono) : bool :=
  match a, b with
  | [], [] => true
  | (x, n) :: a', (y, k) :: b' => (x =? y)%Z && (n =? k)%nat && mono_eqb a' b'
  | _, _ => false
  end.
(* like terms are collected; sympy, used in particles.py:239 *)
Fixpoint term_ins (c : Z) (m : mono) (p : mpoly) : mpoly :=
  match p with
  | [] => [(c, m)]
  | (c', m') :: t => if mono_eqb m m' then ((c + c')%Z, m) :: t else (c', m') :: term_ins c m t
  end.
(* the expanded form; sympy, used in particles.py:239, 244 *)
Definition expand (p : mpoly) : mpoly := filter (fun cm => negb (fst cm =? 0)%Z) (fold_right (fun cm q => term_ins (fst cm) (snd cm) q) [] p).
(* sympy, used in particles.py:239 *)
Definition xmul (p q : mpoly) : mpoly := expand (flat_map (fun cm => map (fun dn => ((fst cm * fst dn)%Z, mono_mul (snd cm) (snd dn))) q) p).
(* sympy, used in particles.py:239 *)
Fixpoint xpow (p : mpoly) (n : nat) : mpoly := match n with O => [(1%Z, [])] | S n' => xmul p (xpow p n') end.
(* the value of a symbol in the dictionary, or itself; particles.py:239 *)
Fixpoint look_up (d : list (Z * mpoly)) (x : Z) : mpoly :=
  match d with [] => [(1%Z, [(x, 1%nat)])] | (y, p) :: d' => if (x =? y)%Z then p else look_up d' x end.
(* expression.subs(myDict), particles.py:239 *)
Definition xsubs (d : list (Z * mpoly)) (p : mpoly) : mpoly :=
  expand (flat_map (fun cm => xmul [(fst cm, [])] (fold_right (fun xn q => xmul (xpow (look_up d (fst xn)) (snd xn)) q) [(1%Z, [])] (snd cm))) p).
(* the class of an expression, particles.py:238, 240 *)
Inductive sclass := CInteger | CSymbol | CPow | CMul | CAdd.
(* the class of an expression in expanded form, particles.py:238, 240 *)
Definition class_of (p : mpoly) : sclass :=
  match p with
  | [] => CInteger
  | [(c, [])] => CInteger
  | [(c, [(x, n)])] => if (c =? 1)%Z then if (n =? 1)%nat then CSymbol else CPow else CMul
  | [(c, _)] => CMul
  | _ => CAdd
  end.
(* the integer, particles.py:241 *)
Definition constant (p : mpoly) : Z := match p with (c, _) :: _ => c | [] => 0%Z end.
(* the residue of a coefficient between - modulus / 2 and modulus / 2, as sympy.poly writes it; particles.py:245 *)
Definition residue (md c : Z) : Z := let r := (c mod md)%Z in if (md / 2 <? r)%Z then (r - md)%Z else r.
(* sympy.poly(expression, modulus).as_expr(), particles.py:245 *)
Definition modulo (md : Z) (p : mpoly) : mpoly := expand (map (fun cm => (residue md (fst cm), snd cm)) p).
Section Subs.
Context {K : Fld}.
(* ModP(n, characteristic), particles.py:241 *)
Definition mod_int (z : Z) : K := InitialRing.gen_phiZ f0 f1 fadd fmul fopp z.
(* a component of a spinor, particles.py:238 *)
Inductive component := CNum (x : K) | CExpr (p : mpoly).
(* one of the four blocks, particles.py:238-245; [md] is the characteristic *)
Definition subs_component (md : Z) (d : list (Z * mpoly)) (e : component) : component :=
  match e with
  | CNum x => CNum x
  | CExpr p =>
      match class_of p with
      | CAdd | CMul | CSymbol => let q := xsubs d p in match class_of q with CInteger => CNum (mod_int (constant q)) | _ => CExpr (modulo md q) end
      | _ => CExpr p
      end
  end.
(* the spinors r_sp_d and l_sp_d of all legs, particles.py:237-271 *)
Definition subs_point (md : Z) (d : list (Z * mpoly)) (s : list ((component * component) * (component * component))) :=
  map (fun p => ((subs_component md d (fst (fst p)), subs_component md d (snd (fst p))), (subs_component md d (fst (snd p)), subs_component md d (snd (snd p))))) s.
(* an internal mass: the name of an invariant or a component; particles.py:272-280 *)
Inductive imass := MName (t : list Z) | MComp (e : component).
(* particles.py:273-280 *)
Definition subs_mass (md : Z) (d : list (Z * mpoly)) (m : imass) : imass :=
  match m with
  | MName t => MName t
  | MComp (CNum x) => MComp (CNum x)
  | MComp (CExpr p) =>
      let q := match class_of p with CAdd | CMul | CSymbol => xsubs d p | _ => p end in
      match class_of q with CInteger => MComp (CNum (mod_int (constant q))) | _ => MComp (CExpr (modulo md q)) end
  end.
End Subs.
Arguments component K : clear implicits.
Arguments imass K : clear implicits.
