(* Model of lips/symmetries.py and of Particles.image / Particles.copy. *)
From Coq Require Import List ZArith Bool.
From Verif Require Import Base Fld Particle Index Phase.
Import ListNotations.
Open Scope Z_scope.

(* A permutation string: the list of its characters, which are digits 0..9.
   Simplification: other characters (ValueError in particles.py:147-148) are left out. *)
Definition pstring := list Z.

(* str(n) for n >= 0; [fuel] is an upper bound for the number of digits; symmetries.py:11-12, 22, 31 *)
Fixpoint digits_fuel (fuel : nat) (n : Z) (acc : list Z) : list Z :=
  match fuel with
  | O => acc
  | S f => let acc' := n mod 10 :: acc in
           if n / 10 =? 0 then acc' else digits_fuel f (n / 10) acc'
  end.
(* symmetries.py:11-12, 22, 31 *)
Definition str (n : Z) : list Z := digits_fuel (S (Z.to_nat n)) n [].
(* "".join(map(str, l)); symmetries.py:11-12, 22, 31 *)
Definition join (l : list Z) : pstring := concat (map str l).

(* ---- python's sorted with a key: stable insertion sort ---- *)
Section Sort.
Context {A : Type}.
(* particles.py:149 *)
Fixpoint kinsert (x : Z * A) (l : list (Z * A)) : list (Z * A) :=
  match l with
  | [] => [x]
  | y :: t => if fst x <=? fst y then x :: y :: t else y :: kinsert x t
  end.
(* particles.py:149 *)
Definition ksort (l : list (Z * A)) : list (Z * A) := fold_right kinsert [] l.
End Sort.

(* ---- itertools.permutations, in its order ---- *)
Section Perms.
Context {A : Type}.
(* every element together with the remaining ones; symmetries.py:5-13 *)
Fixpoint picks (l : list A) : list (A * list A) :=
  match l with
  | [] => []
  | x :: t => (x, t) :: map (fun y => (fst y, x :: snd y)) (picks t)
  end.
(* symmetries.py:5-13 *)
Fixpoint perms_n (n : nat) (l : list A) : list (list A) :=
  match n with
  | O => [[]]
  | S n' => flat_map (fun y => map (cons (fst y)) (perms_n n' (snd y))) (picks l)
  end.
(* symmetries.py:5-13 *)
Definition permutations (l : list A) : list (list A) := perms_n (length l) l.
End Perms.

Section Image.
Context {K : Fld}.
(* self.index(x): the first position whose particle equals x (Particle.__eq__);
   list.index starts at 0 *)
Fixpoint index_of (s : ps K) (x : particle K) : nat :=
  match s with
  | [] => 0
  | y :: t => if p_eqb y x then 0 else S (index_of t x)
  end.
(* particles.py:146-152.  ''.isdigit() is False: ValueError.  The comparison of two
   digit characters is the comparison of the digits.  deepcopy and the constructor
   with a list and fix_mom_cons=False keep the particles; which objects are shared is
   Heap.v's business, the internal masses are Masses.v's. *)
Definition image_str (perm : pstring) (s : ps K) : result (ps K) :=
  match perm with
  | [] => Err ValueError
  | _ => rbind (rmapM (fun x => match nth_error perm (index_of s x) with
                                | Some c => Ok (c, x)
                                | None => Err IndexError end) s)
               (fun keyed => Ok (map snd (ksort keyed)))
  end.
(* particles.py:153-158 *)
Definition image (rule : pstring * bool) (s : ps K) : result (ps K) :=
  rmap (fun s' => if snd rule then ps_flip s' else s') (image_str (fst rule) s).
(* symmetries.py:30-31 *)
Definition identity (n : nat) : pstring * bool := (join (upto n), false).
(* particles.py:160-162 *)
Definition copy (s : ps K) : result (ps K) := image (identity (length s)) s.
End Image.

(* symmetries.py:16-24: inverse_permutation[int(entry) - 1] = i + 1; the entry 0 is
   python's index -1, the last position *)
Fixpoint inverse_loop (acc : list Z) (i : Z) (perm : pstring) : result (list Z) :=
  match perm with
  | [] => Ok acc
  | c :: t => let k := if c =? 0 then Nat.pred (length acc) else Z.to_nat (c - 1) in
              rbind (list_set acc k (i + 1)) (fun acc' => inverse_loop acc' (i + 1) t)
  end.
Definition inverse (perm : pstring) : result pstring :=
  rmap join (inverse_loop (map (fun _ => 0) perm) 0 perm).
(* symmetries.py:25-26 *)
Definition inverse_rule (r : pstring * bool) : result (pstring * bool) :=
  rmap (fun p => (p, snd r)) (inverse (fst r)).

(* symmetries.py:5-13.  Simplification: the phase weights are integers. *)
Definition permuted (w : list Z) (perm : list Z) : list Z :=
  map (fun i => nth (Z.to_nat (i - 1)) w 0) perm.
(* == of lists, symmetries.py:10-12 *)
Definition zlist_eqb (a b : list Z) : bool := if list_eq_dec Z.eq_dec a b then true else false.
(* symmetries.py:10-12 *)
Definition compatible (w : list Z) (perm : list Z) : option (list Z * bool) :=
  if zlist_eqb (permuted w perm) w then Some (perm, false)
  else if zlist_eqb (permuted w perm) (map Z.opp w) then Some (perm, true) else None.
(* the entries that are appended, symmetries.py:10-12 *)
Fixpoint filter_some {A B} (f : A -> option B) (l : list A) : list B :=
  match l with
  | [] => []
  | x :: t => match f x with Some y => y :: filter_some f t | None => filter_some f t end
  end.
Definition phase_weights_compatible_symmetries (w : list Z) : list (pstring * bool) :=
  map (fun r => (join (fst r), snd r)) (filter_some (compatible w) (permutations (upto (length w)))).
(* symmetries.py:34-35 *)
Definition all_symmetries (n : nat) : list (pstring * bool) :=
  phase_weights_compatible_symmetries (repeat 0 n).
