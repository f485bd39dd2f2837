(* Model of Particles.phasespace_consistency_check, lips/particles.py:322-384. *)
From Coq Require Import List ZArith Bool.
From Verif Require Import Base Phase Index.
Import ListNotations.

(* l[i], l[i + 1] = l[i + 1], l[i], particles.py:356-361 *)
Definition swap_at {A} (i : nat) (l : list A) : list A :=
  match nth_error l i, nth_error l (S i) with
  | Some x, Some y => firstn i l ++ y :: x :: skipn (S (S i)) l
  | _, _ => l
  end.

Section Sort.
(* I: invariants, V: their moduli; gt is > of moduli, and a <= b is not (a > b), a >= b is
   not (b > a).  Simplification: the moduli are totally ordered, nan is not one of them
   unless [is_nan] returned. *)
Context {I V : Type} (gt : V -> V -> bool).

(* one run of the for loop, particles.py:353-362: Break is the last component *)
Fixpoint pass (is : list nat) (vs : list V) (xs : list I) (brk : bool) : list V * list I * bool :=
  match is with
  | [] => (vs, xs, brk)
  | i :: is' =>
      match nth_error vs i, nth_error vs (S i) with
      | Some a, Some b => if gt a b then pass is' (swap_at i vs) (swap_at i xs) false else pass is' vs xs brk
      | _, _ => pass is' vs xs brk            (* not reached: the two lists have the same length *)
      end
  end.
(* while True, particles.py:351-364 *)
Fixpoint bubble (fuel : nat) (vs : list V) (xs : list I) : result (list V * list I) :=
  match fuel with
  | O => Err Diverges
  | S f => let '(vs', xs', brk) := pass (seq 0 (length xs - 1)) vs xs true in
           if brk then Ok (vs', xs') else bubble f vs' xs'
  end.
(* particles.py:367-374: the loop stops at the first modulus above the threshold *)
Fixpoint small_of (threshold : V) (vs : list V) (xs : list I) : list I :=
  match vs, xs with
  | v :: vs', x :: xs' => if gt v threshold then [] else x :: small_of threshold vs' xs'
  | _, _ => []
  end.
(* particles.py:377-383; [inverse] is 1 / threshold *)
Fixpoint big_of (inverse : V) (vs : list V) (xs : list I) : list I :=
  match vs, xs with
  | v :: vs', x :: xs' => if gt inverse v then big_of inverse vs' xs' else x :: big_of inverse vs' xs'
  | _, _ => []
  end.
(* particles.py:342-349: the moduli in order; None: the early return for "not a number" *)
Fixpoint moduli (value : I -> result V) (is_nan : V -> bool) (silent : bool) (xs : list I) : result (option (list V)) :=
  match xs with
  | [] => Ok (Some [])
  | x :: xs' =>
      rbind (value x) (fun v =>
      if (is_nan v && negb silent)%bool then Ok None
      else rbind (moduli value is_nan silent xs') (fun o => Ok (option_map (cons v) o)))
  end.
(* particles.py:322-384 after the default list; mom_cons and on_shell are the results of
   the two checks.  The caller's list is copied (particles.py:329). *)
Definition consistency (fuel : nat) (mom_cons on_shell : bool) (value : I -> result V) (is_nan : V -> bool) (silent : bool)
    (threshold inverse : V) (xs : list I) : result (bool * bool * list I * list I) :=
  rbind (moduli value is_nan silent xs) (fun o =>
  match o with
  | None => Ok (false, false, [], [])
  | Some vs => rbind (bubble fuel vs xs) (fun r =>
      Ok (mom_cons, on_shell, big_of inverse (fst r) (snd r), small_of threshold (fst r) (snd r)))
  end).
End Sort.

(* the default list, particles.py:325-327: itertools.combinations(range(1, n + 1), 2) in
   order; true for an angle bracket *)
Fixpoint pairs_of (l : list Z) : list (Z * Z) := match l with [] => [] | x :: l' => map (pair x) l' ++ pairs_of l' end.
(* particles.py:325-327 *)
Definition default_invars (n : nat) : list (bool * (Z * Z)) :=
  map (pair true) (pairs_of (upto n)) ++ map (pair false) (pairs_of (upto n)).
