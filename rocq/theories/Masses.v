(* Model of the internal masses of a point: constructor, assignment of attributes,
   internal_masses_dict, the branches of compute for names of masses and Mandelstam
   variables, and the part of Particles.cluster that rewrites them
   (lips/particles.py:62-84, 116-119, 169-174; lips/particles_compute.py:149-157,
   269-273; lips/tools.py:32-34). *)
From Coq Require Import Ascii String.
From Coq Require Import List ZArith Bool.
From Verif Require Import Base Fld Particle Index Phase Compute Cluster Symm Str.
Import ListNotations.

(* ---- the three regular expressions, tools.py:32-34.  Simplification: \d is 0..9, and
   the trailing newline that $ allows is not. ---- *)
Open Scope Z_scope.
(* _? in tools.py:32-34 *)
Definition opt_underscore (t : pystr) : pystr := match t with 95 :: t' => t' | _ => t end.
(* the digits behind s, S, s_, S_; pSijk; tools.py:32 *)
Definition match_s (t : pystr) : option (list Z) :=
  match t with
  | c :: t' =>
      let r := opt_underscore t' in
      if ((c =? 115) || (c =? 83)) && negb (length r =? 0)%nat && forallb is_digit r then Some (map (fun d => d - 48) r) else None
  | [] => None
  end.
(* the digit behind m, M, m_, M_; pMi; tools.py:33 *)
Definition match_mi (t : pystr) : option Z :=
  match t with
  | c :: t' =>
      match opt_underscore t' with
      | [d] => if ((c =? 109) || (c =? 77)) && is_digit d then Some (d - 48) else None
      | _ => None
      end
  | [] => None
  end.
(* [a-zA-Z] in tools.py:34 *)
Definition is_letter (c : Z) : bool := ((65 <=? c) && (c <=? 90)) || ((97 <=? c) && (c <=? 122)).
(* tools.py:34 *)
Fixpoint letters_digits (t : pystr) : bool :=
  match t with
  | [] => true
  | c :: t' => if is_letter c then letters_digits t' else forallb is_digit t
  end.
(* pMVar; 956 is the greek mu *)
Definition is_mass (t : pystr) : bool :=
  match t with
  | c :: t' => ((c =? 109) || (c =? 77) || (c =? 956)) && letters_digits (opt_underscore t')
  | [] => false
  end.
(* names that pMVar accepts and that are properties of the class, particles.py:112-123 *)
Definition is_property (t : pystr) : bool := str_eqb t (lit "ms") || str_eqb t (lit "multiplicity").

Section Masses.
Context {K : Fld}.
Open Scope fld_scope.
Open Scope res_scope.

(* the value of a mass: a number or an alias *)
Inductive mval := MNum (x : K) | MStr (t : pystr).

(* ---- compute of a name, particles_compute.py:149-157 and 269-273 ----
   [A] are the attributes of the point.  An alias may name another mass; the fuel is one
   more than the number of masses, so that running out of it means that the aliases
   form a cycle: RecursionError.  Simplification: a text that is neither a Mandelstam
   variable nor the name of a mass is left to the other branches (OtherException);
   properties of the class (ms, multiplicity) are not stored in A. *)
Fixpoint compute_name_fuel (fuel : nat) (s : ps K) (A : dict mval) (t : pystr) : result K :=
  match match_mi t with
  | Some d => c_S s [d]
  | None =>
  match match_s t with
  | Some l => c_S s l
  | None =>
  if is_mass t then
    match dict_get t A with
    | None => Err AttributeError
    | Some (MNum x) => Ok x
    | Some (MStr t') => match fuel with O => Err RecursionError | S f => compute_name_fuel f s A t' end
    end
  else Err OtherException
  end end.
Definition compute_name (s : ps K) (A : dict mval) (t : pystr) : result K := compute_name_fuel (length A) s A t.

(* ---- cluster, particles.py:169-172 ---- *)
Definition rules (cs : list (list Z)) : dict pystr :=
  let keys pre := map (fun c => (lit pre ++ concat (map dec c))%list) cs in
  let vals pre := map (fun i => (lit pre ++ dec i)%list) (upto (length cs)) in
  let drule1 := dict_update [] (combine (keys "s"%string) (vals "s"%string)) in
  let drule2 := dict_update [] (combine (keys "s_"%string) (vals "s_"%string)) in
  dict_update drule1 drule2.
(* particles.py:172 *)
Definition cluster_mass (cs : list (list Z)) (v : mval) : result mval :=
  match v with MNum x => Ok (MNum x) | MStr t => rmap MStr (subs_dict t (rules cs)) end.
Definition cluster_masses (cs : list (list Z)) (A : dict mval) : result (dict mval) :=
  rmapM (fun kv => rmap (pair (fst kv)) (cluster_mass cs (snd kv))) A.

(* ---- the objects ----
   A set lives at a location, since particles.py:68 keeps the set it was given; lists
   and tuples cannot change.  Simplification: a set is the list of its elements in the
   order of insertion. *)
Inductive container := CSet (l : nat) | CList (ns : list pystr) | CTuple (ns : list pystr).
(* the attributes of a Particles object that matter here, particles.py:62-84 *)
Record pobj := mkObj { masses : container; attrs : dict mval }.
(* all sets and objects of a program, particles.py:62-84 *)
Record world := mkW { sets : list (list pystr); objs : list pobj }.
(* set.add, particles.py:83 *)
Definition set_add (n : pystr) (ns : list pystr) : list pystr := if existsb (str_eqb n) ns then ns else (ns ++ [n])%list.
Fixpoint upd {A} (f : A -> A) (l : list A) (i : nat) : list A :=
  match l, i with
  | [], _ => []
  | x :: l', O => f x :: l'
  | x :: l', S j => x :: upd f l' j
  end.
(* __setattr__, particles.py:81-84: the sets and the attributes afterwards; a list or a
   tuple has no add, and a property cannot be assigned *)
Definition setattr (S : list (list pystr)) (c : container) (A : dict mval) (n : pystr) (v : mval)
  : list (list pystr) * result (dict mval) :=
  let store S' := (S', if is_property n then Err AttributeError else Ok (dict_set n v A)) in
  if is_mass n then
    match c with CSet l => store (upd (set_add n) S l) | _ => (S, Err AttributeError) end
  else store S.
(* particles.py:66, 70 *)
Fixpoint setattrs (S : list (list pystr)) (c : container) (A : dict mval) (l : dict mval)
  : list (list pystr) * result (dict mval) :=
  match l with
  | [] => (S, Ok A)
  | (n, v) :: l' => match setattr S c A n v with
                    | (S', Ok A') => setattrs S' c A' l'
                    | (S', Err e) => (S', Err e)
                    end
  end.
(* the argument internal_masses; particles.py:62-71 *)
Inductive marg := ANone | ADict (d : dict mval) | ANames (c : container).
Definition elements (S : list (list pystr)) (c : container) : list pystr :=
  match c with CSet l => nth l S [] | CList ns | CTuple ns => ns end.
(* particles.py:62-74, the other attributes left out; [rnd] are the random values of particles.py:70 *)
Definition construct (a : marg) (rnd : pystr -> K) (w : world) : world * result unit :=
  let make S c l :=
    match setattrs S c [] l with
    | (S', Ok A) => (mkW S' (objs w ++ [mkObj c A])%list, Ok tt)
    | (S', Err e) => (mkW S' (objs w), Err e)
    end in
  match a with
  | ANone => make (sets w ++ [[]])%list (CSet (length (sets w))) []
  | ADict d => make (sets w ++ [[]])%list (CSet (length (sets w))) d
  | ANames c => make (sets w) c (map (fun n => (n, MNum (rnd n))) (elements (sets w) c))
  end.
(* oPs.name = value for the object number i *)
Definition assign (i : nat) (n : pystr) (v : mval) (w : world) : world * result unit :=
  match nth_error (objs w) i with
  | None => (w, Err IndexError)
  | Some o => match setattr (sets w) (masses o) (attrs o) n v with
              | (S', Ok A) => (mkW S' (upd (fun _ => mkObj (masses o) A) (objs w) i), Ok tt)
              | (S', Err e) => (mkW S' (objs w), Err e)
              end
  end.
(* internal_masses and internal_masses_dict, particles.py:116-119 *)
Definition internal_masses (w : world) (o : pobj) : list pystr := elements (sets w) (masses o).
(* particles.py:118-119 *)
Definition internal_masses_dict (w : world) (o : pobj) : result (dict mval) :=
  rmapM (fun n => match dict_get n (attrs o) with Some v => Ok (n, v) | None => Err AttributeError end) (internal_masses w o).

(* a program that uses points: the user's own sets, constructions and assignments; an
   exception stops the statement, not the program; the calls of particles.py:44-84 *)
Inductive op := OSet (ns : list pystr) | ONew (a : marg) (rnd : pystr -> K) | OAssign (i : nat) (n : pystr) (v : mval).
(* the calls of particles.py:44-84 *)
Definition run_op (o : op) (w : world) : world :=
  match o with
  | OSet ns => mkW (sets w ++ [fold_left (fun a n => set_add n a) ns []])%list (objs w)
  | ONew a rnd => fst (construct a rnd w)
  | OAssign i n v => fst (assign i n v w)
  end.
(* a sequence of calls of particles.py:44-84 *)
Definition run (l : list op) (w : world) : world := fold_left (fun w o => run_op o w) l w.
(* before the first call (particles.py:44) *)
Definition world0 : world := mkW [] [].
End Masses.
Arguments mval K : clear implicits.
Arguments container : clear implicits.
Arguments pobj K : clear implicits.
Arguments world K : clear implicits.
Arguments marg K : clear implicits.
Arguments op K : clear implicits.
