(* Regular expressions and a matcher for them, for lips/tools.py:32-51 and
   lips/particles_eval.py:29-87. *)
From Coq Require Import Ascii String.
From Coq Require Import List ZArith Bool.
From Verif Require Import Base Str.
Import ListNotations.
Open Scope Z_scope.

(* ---- regular expressions ---- *)
(* The expressions of tools.py:32-51 between ^ and $.  RChr is one character of a class, RStar is
   greedy, RGrp is a group with its number (start, middle and end are 1, 2 and 3).
   Simplifications: \d is 0..9, $ does not allow a newline behind it. *)
Inductive re := REps | RChr (f : Z -> bool) | RSeq (a b : re) | RAlt (a b : re) | RStar (a : re) | RGrp (g : nat) (a : re).
(* the groups of a match with their texts; used by findall and search, e.g. particles_compute.py:85, 184-187 *)
Definition caps := list (nat * pystr).
(* the repetitions of a starred expression in the order in which re tries them: as many as possible
   first; an empty repetition ends the loop.  The fuel is the number of characters left.
   tools.py:32-51 *)
Section Loop.
Variable one : pystr -> list (caps * pystr).
(* tools.py:32-51 *)
Fixpoint loop (fuel : nat) (s : pystr) : list (caps * pystr) :=
  match fuel with
  | O => []
  | S f => flat_map (fun x => if (length (snd x) <? length s)%nat then map (fun y => (fst x ++ fst y, snd y)) (loop f (snd x)) else []) (one s)
  end ++ [([], s)].
End Loop.
(* all the ways to match a beginning of the text, in the order of backtracking, with the rest of the
   text; tools.py:32-51 *)
Fixpoint tries (r : re) (s : pystr) : list (caps * pystr) :=
  match r with
  | REps => [([], s)]
  | RChr f => match s with c :: s' => if f c then [([], s')] else [] | [] => [] end
  | RSeq a b => flat_map (fun x => map (fun y => (fst x ++ fst y, snd y)) (tries b (snd x))) (tries a s)
  | RAlt a b => tries a s ++ tries b s
  | RStar a => loop (tries a) (length s) s
  | RGrp g a => map (fun x => (fst x ++ [(g, firstn (length s - length (snd x)) s)], snd x)) (tries a s)
  end.
(* p.search(s) of an expression that is anchored at both ends: the groups of the first match,
   None if p.findall(s) == []; e.g. particles_compute.py:84-85 *)
Definition search (r : re) (s : pystr) : option caps := option_map fst (find (fun x => (length (snd x) =? 0)%nat) (tries r s)).
(* m.group(g), the empty string for a group without part in the match (findall); particles_compute.py:85, 184-187 *)
Fixpoint group (g : nat) (c : caps) : pystr := match c with [] => [] | (h, t) :: c' => if (h =? g)%nat then t else group g c' end.

(* x? is (x|), x+ is xx*; tools.py:32-51 *)
Definition ropt (a : re) : re := RAlt a REps.
(* tools.py:32-51 *)
Definition rplus (a : re) : re := RSeq a (RStar a).
(* one character, given by its code; tools.py:32-51 *)
Definition rc (k : Z) : re := RChr (fun c => c =? k).
(* a class of characters; tools.py:32-51 *)
Definition rcls (l : list Z) : re := RChr (fun c => existsb (Z.eqb c) l).
(* several characters; tools.py:32-51 *)
Fixpoint rlit (t : pystr) : re := match t with [] => REps | [c] => rc c | c :: t' => RSeq (rc c) (rlit t') end.
(* \d+; tools.py:32-51 *)
Definition rnum : re := rplus (RChr is_digit).
