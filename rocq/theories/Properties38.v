(* Tightening of C48: which names are names of masses, and that the sets of names are sets. *)
From Coq Require Import Ascii String.
From Coq Require Import List ZArith Bool Lia.
From Verif Require Import Base Fld FldInst Str Masses MassNameSpec MassNameThm.
Import ListNotations.
Open Scope Z_scope.

(* C48: the names of masses are m, M or the greek mu, perhaps an underscore, letters and then digits *)
Theorem C48_names : forall t, is_mass t = true <-> mass_text t.
Proof. exact mass_names. Qed.
Print Assumptions C48_names.
Example C48_names_ex : mass_text (956 :: lit "_top12") /\ mass_text (lit "M") /\ ~ mass_text (lit "m_1a") /\ ~ mass_text (lit "m__a").
Proof.
  split; [apply C48_names; reflexivity|]. split; [apply C48_names; reflexivity|]. split; intros H; apply C48_names in H; discriminate H.
Qed.

(* C48: whatever the program, no set of names holds a name twice *)
Theorem C48_once : forall (K : Fld) (l : list (op K)), Forall (@NoDup pystr) (sets (run l world0)).
Proof. intros K l. exact (sets_once l). Qed.
Print Assumptions C48_once.
(* C48: a set of the user holds the names it was given *)
Theorem C48_given : forall (K : Fld) (l : list (op K)) (ns : list pystr) (x : pystr), In x (last (sets (run (l ++ [OSet ns]) world0)) []) <-> In x ns.
Proof. intros K l ns x. exact (set_given l ns x). Qed.
Print Assumptions C48_given.
Example C48_once_ex : sets (run [OSet [lit "m_t"; lit "m_b"; lit "m_t"]; @ONew QF (ANames (CSet 0)) (fun _ => f0); OAssign 0 (lit "m_c") (MNum f0); OAssign 0 (lit "m_t") (MNum f0)] world0) =
  [[lit "m_t"; lit "m_b"; lit "m_c"]].
Proof. vm_compute. reflexivity. Qed.
