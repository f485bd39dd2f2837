(* Model of Particles.save_phase_space_point, lips/particles.py:584-600.  The directory
   phase_space_cache is a dictionary from file names to contents. *)
From Coq Require Import Ascii String.
From Coq Require Import List ZArith Bool.
From Verif Require Import Base Symm Str.
Import ListNotations.
Open Scope Z_scope.

(* str.replace of one character, particles.py:586 *)
Definition replace1 (c : Z) (new : pystr) (t : pystr) : pystr := flat_map (fun x => if x =? c then new else [x]) t.
(* particles.py:585-589; 10216 and 10217 are the unicode angle brackets *)
Definition base_name (invariant : pystr) : pystr :=
  match invariant with
  | [] => lit "NoLimit1.m"
  | _ => replace1 124 (lit "V") (replace1 93 (lit "S") (replace1 91 (lit "S")
           (replace1 10217 (lit "A") (replace1 10216 (lit "A") invariant)))) ++ lit "1.m"
  end.
(* particles.py:595-597: FileName[:-2] + "2.m" if the file exists *)
Definition file_name (exists_ : bool) (name : pystr) : pystr :=
  if exists_ then firstn (length name - 2) name ++ lit "2.m" else name.
(* particles.py:584-600; [content] is what the two functions for mathematica return, the
   directory is created when it does not exist *)
Definition save {C : Type} (invariant : pystr) (content : C) (fs : dict C) : dict C :=
  let name := base_name invariant in
  dict_set (file_name (match dict_get name fs with Some _ => true | None => false end) name) content fs.
(* a sequence of calls; particles.py:584-600, called again and again *)
Definition saves {C : Type} (l : list (pystr * C)) (fs : dict C) : dict C := fold_left (fun fs x => save (fst x) (snd x) fs) l fs.
