(* What the documentation promises about Invariants(n, options), and the facts of a history
   that decide what really happens. *)
From Coq Require Import List ZArith Bool Permutation.
From Verif Require Import Base Str Gen Cache.
Import ListNotations.
Open Scope Z_scope.

(* a construction that reads or writes the file for n legs *)
Definition touches (n : Z) (c : call) : Prop := c_n c = n /\ o_no_cached (c_opts c) = false /\ o_r3 (c_opts c) = true /\ o_r4 (c_opts c) = true.
(* c is the first of the history that does *)
Definition first_touch (n : Z) (h : list call) (c : call) : Prop :=
  exists h1 h2, h = h1 ++ c :: h2 /\ touches n c /\ forall c', In c' h1 -> ~ touches n c'.
(* it ran to the end *)
Definition completed (c : call) (i : invs) : Prop := c_stop c = None /\ from_scratch (c_env c) (c_n c) (c_opts c) = Ok i.
(* set orders only reorder *)
Definition reorders (ord : brk -> bool -> list Z -> list Z) : Prop := forall b br l, Permutation l (ord b br l).
(* the promise of C46: the outcome is a function of n and the options *)
Definition depends_on_arguments_only : Prop :=
  forall h h' c c', c_stop c = None -> c_stop c' = None -> c_n c = c_n c' -> c_opts c = c_opts c' ->
  after_history h c = after_history h' c'.
(* and an earlier failure is not a reason for a later one *)
Definition failures_stay_alone : Prop :=
  forall h c i, c_stop c = None -> from_scratch (c_env c) (c_n c) (c_opts c) = Ok i -> exists i', after_history h c = Done (Ok i').
