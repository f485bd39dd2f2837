(* Model of the base-one list behaviour of Particles, of Particles.__eq__ and of
   Particles._complementary. *)
From Coq Require Import List ZArith Bool Lia.
From Verif Require Import Base.
Import ListNotations.
Open Scope Z_scope.

Section ListOps.
Context {A : Type}.

(* tools.py:122-140 indexing_decorator for an integer index: rebased index or IndexError.
   (String and slice indices are passed through unchanged, tools.py:128-129; see
   [getitem_digits] below for strings, slices are not modelled.) *)
Definition rebase (len index : Z) : result Z :=
  if index <? 1 then Err IndexError
  else if (0 <? index) && (index <? len + 1) then Ok (index - 1)
  else if len <? index then Err IndexError
  else Ok index.

(* list.__getitem__ / __setitem__ / __delitem__ / insert of python for a
   non-negative index; particles.py:406 *)
Definition list_get (l : list A) (i : Z) : result A :=
  match nth_error l (Z.to_nat i) with Some x => Ok x | None => Err IndexError end.
(* particles.py:424 *)
Fixpoint list_set (l : list A) (i : nat) (v : A) : result (list A) :=
  match l, i with
  | [], _ => Err IndexError
  | _ :: l', O => Ok (v :: l')
  | x :: l', S i' => rmap (cons x) (list_set l' i' v)
  end.
(* particles.py:428 *)
Fixpoint list_del (l : list A) (i : nat) : result (list A) :=
  match l, i with
  | [], _ => Err IndexError
  | _ :: l', O => Ok l'
  | x :: l', S i' => rmap (cons x) (list_del l' i')
  end.
(* particles.py:432 *)
Fixpoint list_insert (l : list A) (i : nat) (v : A) : list A :=
  match l, i with
  | l, O => v :: l
  | [], _ => [v]
  | x :: l', S i' => x :: list_insert l' i' v
  end.

Definition zlen (l : list A) : Z := Z.of_nat (length l).

(* particles.py:392-406, integer index *)
Definition getitem (l : list A) (i : Z) : result A :=
  rbind (rebase (zlen l) i) (fun k => list_get l k).
(* particles.py:408-424, integer index *)
Definition setitem (l : list A) (i : Z) (v : A) : result (list A) :=
  rbind (rebase (zlen l) i) (fun k => list_set l (Z.to_nat k) v).
(* particles.py:426-428 *)
Definition delitem (l : list A) (i : Z) : result (list A) :=
  rbind (rebase (zlen l) i) (fun k => list_del l (Z.to_nat k)).
(* particles.py:430-432 *)
Definition insert (l : list A) (i : Z) (v : A) : result (list A) :=
  rbind (rebase (zlen l) i) (fun k => Ok (list_insert l (Z.to_nat k) v)).

(* particles.py:397-398: oPs["12"]: the first character that is a digit decides.
   A string is given as the list of its characters, [Some d] for the digit d and
   [None] for any other character (the spinor forms of particles.py:395 are excluded). *)
Fixpoint first_digit (s : list (option Z)) : option Z :=
  match s with [] => None | Some d :: _ => Some d | None :: s' => first_digit s' end.
(* particles.py:397-398 *)
Definition getitem_digits (l : list A) (s : list (option Z)) : result A :=
  match first_digit s with Some d => getitem l d | None => Err IndexError end.

(* a history of mutations; an operation that raises leaves the list as it was; particles.py:408-432 *)
Inductive lop := LSet (i : Z) (v : A) | LDel (i : Z) | LIns (i : Z) (v : A).
(* particles.py:408-432 *)
Definition lstep (l : list A) (o : lop) : list A * result unit :=
  let r := match o with
           | LSet i v => setitem l i v
           | LDel i => delitem l i
           | LIns i v => insert l i v
           end in
  match r with Ok l' => (l', Ok tt) | Err e => (l, Err e) end.
End ListOps.
Arguments lop A : clear implicits.

(* particles.py:89-94: all(self[i] == other[i] for i in range(1, len(self)+1));
   all() stops at the first False, self[i] is always in range. [eqA] is the
   equality of two entries (Particle.__eq__). *)
Fixpoint seq_eq {A} (eqA : A -> A -> bool) (l l' : list A) : result bool :=
  match l with
  | [] => Ok true
  | x :: t => match l' with
              | [] => Err IndexError
              | y :: t' => if eqA x y then seq_eq eqA t t' else Ok false
              end
  end.

(* ---- _complementary ---- *)
(* list.remove of the first occurrence, guarded by `if element in c_list` *)
Fixpoint remove1 (x : Z) (l : list Z) : list Z :=
  match l with [] => [] | y :: l' => if x =? y then l' else y :: remove1 x l' end.
(* range(1, n+1), particles.py:462-464 *)
Definition upto (n : nat) : list Z := map Z.of_nat (seq 1 n).
(* particles.py:453-469.  Input: the flattened list (particles.py:454; `flatten` is
   syngular's).  The set of particles.py:456 has some iteration order and no repetitions;
   [set_order] is that order.  Simplification: entries are integers, not strings. *)
Definition complementary (set_order : list Z -> list Z) (n : nat) (l : list Z) : result (list Z) :=
  match set_order l with
  | [] => Err IndexError                                   (* list(temp_list)[0] *)
  | s => Ok (fold_left (fun c x => if existsb (Z.eqb x) c then remove1 x c else c) s (upto n))
  end.
(* what is known of python's set(l): same elements, no repetitions; particles.py:456 *)
Definition set_like (set_order : list Z -> list Z) : Prop :=
  forall l, NoDup (set_order l) /\ (forall x, In x (set_order l) <-> In x l).
