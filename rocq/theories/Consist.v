(* Model of Particles.check_consistency, lips/particles.py:494-525, called by _set_inner,
   lips/hardcoded_limits/particles_set.py:39. *)
From Coq Require Import Ascii String.
From Coq Require Import List ZArith Bool.
From Verif Require Import Base Str.
Import ListNotations.
Open Scope Z_scope.
Open Scope res_scope.

(* the message of the exception that is constructed and thrown away: no underscore (particles.py:508), no
   opening bracket (513), not the closing bracket that fits (519-525) *)
Inductive complaint := NoUnderscore | NoOpening | NoClosing.
(* temp_string[n] for n >= 0, particles.py:495, 504, 506 *)
Definition char_at (t : pystr) (n : nat) : result Z := match nth_error t n with Some c => Ok c | None => Err IndexError end.
(* the class [\(\)⟨⟩|\]\[] of particles.py:498 *)
Definition is_sep (c : Z) : bool := existsb (Z.eqb c) [40; 41; 10216; 10217; 124; 93; 91].
(* re.split(class, temp_string), particles.py:498 *)
Fixpoint re_split (t : pystr) : list pystr :=
  match t with
  | [] => [[]]
  | c :: t' => if is_sep c then [] :: re_split t' else match re_split t' with h :: r => (c :: h) :: r | [] => [[c]] end
  end.
(* list(filter(None, relist)), particles.py:499 *)
Definition relist (t : pystr) : list pystr := filter (fun w => negb (length w =? 0)%nat) (re_split t).
(* temp_string[0:3] == "tr5", particles.py:502 *)
Definition is_tr5 (t : pystr) : bool := str_eqb (firstn 3 t) (lit "tr5").
(* s, S, Δ, Ω, Π, δ; particles.py:502 *)
Definition is_letter6 (c : Z) : bool := existsb (Z.eqb c) [115; 83; 916; 937; 928; 948].
(* particles.py:503-509 *)
Definition check_name (t : pystr) (init : Z) : result (option complaint) :=
  five <-? (if init =? 948 then rmap (Z.eqb 53) (char_at t 1) else Ok false) ;;
  if five : bool then Ok None else
  one <-? rmap (Z.eqb 95) (char_at t 1) ;;
  if one : bool then Ok None else
  four <-? (if is_tr5 t then rmap (Z.eqb 95) (char_at t 4) else Ok false) ;;
  if four : bool then Ok None else Ok (Some NoUnderscore).
(* particles.py:516-525; alte is 1 for an even number of pieces *)
Definition check_closing (init clos : Z) (n : nat) : option complaint :=
  let wants (c : Z) := if clos =? c then None else Some NoClosing in
  if Nat.even n then (if init =? 10216 then wants 10217 else wants 93)
  else (if init =? 10216 then wants 93 else wants 10217).
(* particles.py:493-525: what it complains about, if anything; the caller never sees it *)
Definition check_consistency (t : pystr) : result (option complaint) :=
  init <-? char_at t 0 ;; clos <-? char_at t (length t - 1) ;;
  if is_letter6 init || is_tr5 t then check_name t init
  else if negb (init =? 10216) && negb (init =? 91) then Ok (Some NoOpening)
  else Ok (check_closing init clos (length (relist t))).
