(* Images of polynomials under permutations and conjugation: covariant_poly_image,
   lips/algebraic_geometry/covariant_ideal.py:106-110, and invariant_poly_image,
   lips/algebraic_geometry/invariant_ideal.py:64-84, on the texts of polynomials; the values
   of their variables at a point, lips/particles.py:224-233 and
   lips/algebraic_geometry/tools.py:32-41.
   Not modelled: the ideals themselves (syngular), only their lists of generators. *)
From Coq Require Import Ascii String.
From Coq Require Import List ZArith Bool.
From Verif Require Import Base Fld Particle Index Phase Compute Symm Str Gen Parse.
Import ListNotations.
Open Scope Z_scope.
Open Scope res_scope.

(* l[i], with python's negative indices; covariant_ideal.py:107, invariant_ideal.py:76-82 *)
Definition py_nth {A} (l : list A) (i : Z) : result A :=
  let k := if i <? 0 then i + Z.of_nat (length l) else i in
  if k <? 0 then Err IndexError else match nth_error l (Z.to_nat k) with Some x => Ok x | None => Err IndexError end.
(* str.replace for single characters; covariant_ideal.py:109, invariant_ideal.py:83 *)
Definition repl (x y : Z) (t : pystr) : pystr := map (fun c => if c =? x then y else c) t.
Definition is_abcd (c : Z) : bool := (97 <=? c) && (c <=? 100).

(* re.sub(r"(?<=[abcd])(\d)", lambda match: rule[0][int(match.group(0)) - 1], polynomial),
   covariant_ideal.py:107; [prev] is the character before, 0 at the start.
   Simplification: \d is a digit 0..9. *)
Fixpoint cov_sub (perm : pstring) (prev : Z) (t : pystr) : result pystr :=
  match t with
  | [] => Ok []
  | c :: t' =>
      if is_abcd prev && is_digit c
      then (d <-? py_nth perm (c - 48 - 1) ;; rmap (cons (48 + d)) (cov_sub perm c t'))
      else rmap (cons c) (cov_sub perm c t')
  end.
(* covariant_ideal.py:109 *)
Definition cov_swap (t : pystr) : pystr := repl 66 100 (repl 65 99 (repl 100 98 (repl 99 97 (repl 98 66 (repl 97 65 t))))).
(* covariant_ideal.py:106-110 *)
Definition covariant_poly_image (polynomial : pystr) (rule : pstring * bool) : result pystr :=
  rmap (fun t => if snd rule then cov_swap t else t) (cov_sub (fst rule) 0 polynomial).
(* LipsIdeal.image, covariant_ideal.py:77-80, on the generators *)
Definition lips_image (generators : list pystr) (rule : pstring * bool) : result (list pystr) :=
  rmapM (fun g => covariant_poly_image g rule) generators.

(* invariant_ideal.py:64-65 *)
Definition indices (multiplicity : Z) : list Z := zrange 1 (multiplicity + 1).
(* itertools.combinations(indices, 2), invariant_ideal.py:69 *)
Definition pairs (multiplicity : Z) : list (list Z) := combinations 2 (indices multiplicity).
(* pairs.index(p), None where p is not in pairs *)
Fixpoint pos (p : list Z) (l : list (list Z)) : option Z :=
  match l with [] => None | q :: l' => if zlist_eqb p q then Some 0 else option_map Z.succ (pos p l') end.
(* an entry of invariant_ideal.py:70-71 *)
Definition pair_number (multiplicity i j : Z) : Z :=
  match pos [i; j] (pairs multiplicity) with
  | Some k => k + 1
  | None => match pos [j; i] (pairs multiplicity) with Some k => - (k + 1) | None => 0 end
  end.
(* invariant_ideal.py:68-71 *)
Definition indices_2d (multiplicity : Z) : list (list Z) :=
  map (fun i => map (fun j => pair_number multiplicity i j) (indices multiplicity)) (indices multiplicity).
(* numpy.triu_indices(n, k=1) *)
Definition triu (n : Z) : list (Z * Z) := flat_map (fun i => map (pair i) (zrange (i + 1) n)) (zrange 0 n).
(* invariant_ideal.py:75-77 *)
Definition signed_permutation_2d (perm : pstring) : result (list Z) :=
  let permutation := map (fun entry => entry - 1) perm in
  let multiplicity := Z.of_nat (length perm) in
  rows <-? rmapM (py_nth (indices_2d multiplicity)) permutation ;;
  mat <-? rmapM (fun row => rmapM (py_nth row) permutation) rows ;;
  rmapM (fun ij => row <-? py_nth mat (fst ij) ;; py_nth row (snd ij)) (triu multiplicity).
Definition is_AB (c : Z) : bool := (c =? 65) || (c =? 66).
(* re.sub(r"([AB])(\d+)", ...), invariant_ideal.py:79-81; [skip] characters of a match are
   still to be dropped *)
Fixpoint inv_sub (signed : list Z) (skip : nat) (t : pystr) : result pystr :=
  match t with
  | [] => Ok []
  | c :: t' =>
      match skip with
      | S k => inv_sub signed k t'
      | O =>
          let ds := digits t' in
          if is_AB c && negb (length ds =? 0)%nat
          then z <-? py_nth signed (number ds - 1) ;;
               rmap (app (if 0 <? z then c :: dec (Z.abs z) else lit "(-" ++ c :: dec (Z.abs z) ++ lit ")")) (inv_sub signed (length ds) t')
          else rmap (cons c) (inv_sub signed 0 t')
      end
  end.
(* invariant_ideal.py:83 *)
Definition inv_swap (t : pystr) : pystr := repl 67 66 (repl 66 65 (repl 65 67 t)).
(* invariant_ideal.py:74-84 *)
Definition invariant_poly_image (polynomial : pystr) (rule : pstring * bool) : result pystr :=
  signed <-? signed_permutation_2d (fst rule) ;;
  rmap (fun t => if snd rule then inv_swap t else t) (inv_sub signed 0 polynomial).
(* SpinorIdeal.image, invariant_ideal.py:50-54, on the generators *)
Definition spinor_image (generators : list pystr) (rule : pstring * bool) : result (list pystr) :=
  rmapM (fun g => invariant_poly_image g rule) generators.

(* ---- the values of the variables ---- *)
Section Values.
Context {K : Fld}.
(* the name of a sympy symbol: a letter and a number *)
Definition var_name (c i : Z) : pystr := c :: dec i.
(* the entries of one particle, particles.py:230-232 *)
Definition cov_items (i : Z) (p : particle K) : result (dict K) :=
  match r_d p, l_d p with
  | Some r, Some l => Ok [(var_name 97 i, e0 r); (var_name 98 i, e1 r); (var_name 99 i, e0 l); (var_name 100 i, e1 l)]
  | _, _ => Err TypeError
  end.
(* analytical_subs_d, particles.py:224-233; a missing spinor (None[0, 0]) is a TypeError *)
Definition analytical_subs_d (s : ps K) : result (dict K) :=
  rmap (fun ls => dict_update [] (concat ls))
    (rmapM (fun ip => cov_items (fst ip) (snd ip)) (combine (zrange 1 (Z.of_nat (length s) + 1)) s)).
(* The invariants that A1, A2, ..., B1, B2, ... stand for, algebraic_geometry/tools.py:32-41
   (conversionIdeal): the values of the two-particle brackets of the pairs. *)
Definition inv_items (c : Z) (bracket : Z -> Z -> result K) (ps : list (list Z)) : result (dict K) :=
  rmapM (fun kp => match snd kp with [i; j] => rmap (pair (var_name c (fst kp))) (bracket i j) | _ => Err ValueError end)
        (combine (zrange 1 (Z.of_nat (length ps) + 1)) ps).
(* algebraic_geometry/tools.py:32-41 *)
Definition invariant_values (s : ps K) : result (dict K) :=
  let ps := pairs (Z.of_nat (length s)) in
  a <-? inv_items 65 (c_A2 s) ps ;; b <-? inv_items 66 (c_S2 s) ps ;; Ok (dict_update [] (a ++ b)).
End Values.
