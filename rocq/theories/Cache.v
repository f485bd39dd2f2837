(* Invariants.__init__ and its cache on disk. *)
From Coq Require Import Ascii String.
From Coq Require Import List ZArith Bool.
From Verif Require Import Base Str Gen.
Import ListNotations.
Open Scope Z_scope.
Open Scope res_scope.

(* the nine keys of a shelf, in the order of writing, invariants.py:55-63 *)
Inductive fam := F2 | F3 | F4 | F5 | Fs | FD | FO | FP | Ftr5.
(* invariants.py:55-63 *)
Definition families : list fam := [F2; F3; F4; F5; Fs; FD; FO; FP; Ftr5].
Definition fam_eqb (a b : fam) : bool :=
  match a, b with
  | F2, F2 | F3, F3 | F4, F4 | F5, F5 | Fs, Fs | FD, FD | FO, FO | FP, FP | Ftr5, Ftr5 => true
  | _, _ => false
  end.
(* the attribute written under a key, invariants.py:55-63 *)
Definition field (i : invs) (f : fam) : list pystr :=
  match f with
  | F2 => invs_2 i | F3 => invs_3 i | F4 => invs_4 i | F5 => invs_5 i | Fs => invs_s i | FD => invs_D i | FO => invs_O i | FP => invs_P i | Ftr5 => invs_tr5 i
  end.
(* a shelf, and the shelves by multiplicity: the path depends on n only, invariants.py:117-127.
   The file is there as soon as it is opened with 'c' (invariants.py:52); a key is in it when
   it was assigned. *)
Definition shelf := fam -> option (list pystr).
(* invariants.py:117-127 *)
Definition disk := Z -> option shelf.
(* before the first call (invariants.py:26) *)
Definition no_files : disk := fun _ => None.
(* invariants.py:52 *)
Definition empty_shelf : shelf := fun _ => None.
(* invariants.py:55-63 *)
Definition assign (sh : shelf) (f : fam) (l : list pystr) : shelf := fun g => if fam_eqb g f then Some l else sh g.
Definition save (d : disk) (n : Z) (sh : shelf) : disk := fun m => if m =? n then Some sh else d m.
(* invariants.py:36-48: all nine keys, else "Missing piece - regenerate invariants." *)
Definition read_shelf (sh : shelf) : result invs :=
  match sh F2, sh F3, sh F4, sh F5, sh Fs, sh FD, sh FO, sh FP, sh Ftr5 with
  | Some l2, Some l3, Some l4, Some l5, Some ls, Some lD, Some lO, Some lP, Some lt => Ok (Invs l2 l3 l4 l5 ls lD lO lP lt)
  | _, _, _, _, _, _, _, _, _ => Err OtherException
  end.
(* invariants.py:30 *)
Definition uses_cache (o : options) : bool := negb (o_no_cached o) && o_r3 o && o_r4 o.
(* One construction of an Invariants object: [c_env] is what differs between processes, and
   [c_stop] says after how many assignments the process is killed, if it is.; invariants.py:26 *)
Record call := Call { c_n : Z; c_opts : options; c_env : env; c_stop : option nat }.
Inductive outcome := Done (r : result invs) | Killed.
(* invariants.py:26-66.  Opening a missing shelf with 'r' raises dbm.error[0]; no other
   exception is caught. *)
Definition init (d : disk) (c : call) : outcome * disk :=
  let n := c_n c in let o := c_opts c in
  if uses_cache o then
    match d n with
    | Some sh => (Done (read_shelf sh), d)
    | None =>
        match from_scratch (c_env c) n o with
        | Err e => (match c_stop c with None => Done (Err e) | Some _ => Killed end, save d n empty_shelf)
        | Ok i =>
            let fs := match c_stop c with None => families | Some k => firstn k families end in
            (match c_stop c with None => Done (Ok i) | Some _ => Killed end,
             save d n (fold_left (fun sh f => assign sh f (field i f)) fs empty_shelf))
        end
    end
  else (match c_stop c with None => Done (from_scratch (c_env c) n o) | Some _ => Killed end, d).
(* a sequence of constructions, in one process or several, one after the other; calls of invariants.py:26-66 *)
Definition after (d : disk) (h : list call) : disk := fold_left (fun d c => snd (init d c)) h d.
(* what a construction gives after the history [h] on a machine without files *)
Definition after_history (h : list call) (c : call) : outcome := fst (init (after no_files h) c).

(* The order of a set of one-character strings: by the slots of the hash table, which depend
   on the hash secret of the process.  [rank] is the slot of a label; python's order is of
   this form when no two labels share a slot.  invariants.py:300-321 *)
Fixpoint insert (rank : Z -> Z) (x : Z) (l : list Z) : list Z :=
  match l with [] => [x] | y :: l' => if rank x <=? rank y then x :: l else y :: insert rank x l' end.
(* invariants.py:300-321 *)
Definition by_rank (rank : Z -> Z) (l : list Z) : list Z := fold_right (insert rank) [] l.
(* a process with that hash secret; invariants.py:300-321 *)
Definition with_secret (rank : Z -> Z) (iset : list Z -> list Z) (test : pystr -> result bool) : env := Env (fun _ _ l => by_rank rank l) iset test.
