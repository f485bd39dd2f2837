(* Python strings as lists of code points, str(), dictionaries and the two substitution
   functions of lips/tools.py:68-89. *)
From Coq Require Import Ascii String.
From Coq Require Import List ZArith Bool.
From Verif Require Import Base Symm.
Import ListNotations.
Open Scope Z_scope.

(* A python str is the list of its code points.; python, no definition of its own in lips (used e.g. in tools.py:68-89) *)
Definition pystr := list Z.
(* a literal of ascii characters *)
Definition lit (s : string) : pystr := map (fun c => Z.of_N (N_of_ascii c)) (list_ascii_of_string s).
(* the built-in str of a number n >= 0; used in tools and in the f-strings of
   particles.py:169-170 *)
Definition dec (n : Z) : pystr := map (Z.add 48) (str n).
(* \d in tools.py:32-34 and particles_eval.py:29-37 *)
Definition is_digit (c : Z) : bool := (48 <=? c) && (c <=? 57).
(* == of strings (built-in); python, no definition of its own in lips (used e.g. in tools.py:68-89) *)
Fixpoint str_eqb (a b : pystr) : bool :=
  match a, b with
  | [], [] => true
  | x :: a', y :: b' => (x =? y) && str_eqb a' b'
  | _, _ => false
  end.
(* str.startswith (built-in); used by re, tools.py:70-71 *)
Fixpoint starts (k t : pystr) : bool :=
  match k, t with
  | [], _ => true
  | x :: k', y :: t' => (x =? y) && starts k' t'
  | _ :: _, [] => false
  end.

(* A python dict with string keys: the pairs in insertion order. *)
Section Dict.
Context {A : Type}.
(* e.g. particles.py:169-170, 224-233 *)
Definition dict := list (pystr * A).
(* d.get(k), e.g. tools.py:71 *)
Fixpoint dict_get (k : pystr) (d : dict) : option A :=
  match d with [] => None | (k', v) :: d' => if str_eqb k k' then Some v else dict_get k d' end.
(* d[k] = v keeps the place of an old key; e.g. particles.py:81-84 *)
Fixpoint dict_set (k : pystr) (v : A) (d : dict) : dict :=
  match d with
  | [] => [(k, v)]
  | (k', v') :: d' => if str_eqb k k' then (k', v) :: d' else (k', v') :: dict_set k v d'
  end.
(* dict(pairs) starts from [], d1 | d2 starts from d1; e.g. particles.py:169-171 *)
Definition dict_update (d : dict) (l : dict) : dict := fold_left (fun d kv => dict_set (fst kv) (snd kv) d) l d.
(* the alternative of re.compile("|".join(...)) that matches at the start of the text; tools.py:70 *)
Fixpoint first_match (d : dict) (t : pystr) : option (pystr * A) :=
  match d with [] => None | (k, v) :: d' => if starts k t then Some (k, v) else first_match d' t end.
End Dict.
Arguments dict A : clear implicits.

(* pattern.sub, tools.py:70-71: scan from the left, replace the first matching
   alternative and go on behind it; [skip] characters of the match are still to be
   dropped.  The keys are not empty here. *)
Fixpoint subs_scan (d : dict pystr) (skip : nat) (t : pystr) : pystr :=
  match t with
  | [] => []
  | c :: t' =>
      match skip with
      | S n => subs_scan d n t'
      | O => match first_match d t with
             | Some (k, v) => v ++ subs_scan d (pred (length k)) t'
             | None => c :: subs_scan d 0 t'
             end
      end
  end.
(* tools.py:68-71 with escape=True.  The pattern of an empty dict is the empty pattern,
   it matches at once and the lookup of "" fails.  Simplification: a dict that has the
   empty string among its keys is not covered (KeyError here). *)
Definition subs_dict (t : pystr) (d : dict pystr) : result pystr :=
  if forallb (fun kv => negb (length (fst kv) =? 0)%nat) d && negb (length d =? 0)%nat then Ok (subs_scan d 0 t) else Err KeyError.
(* tools.py:80-84 with escape=True: {v: k for k, v in ...} *)
Definition rsubs_dict (t : pystr) (d : dict pystr) : result pystr :=
  subs_dict t (dict_update [] (map (fun kv => (snd kv, fst kv)) d)).
