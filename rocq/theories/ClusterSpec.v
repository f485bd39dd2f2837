(* Specification vocabulary for clustering. *)
From Coq Require Import List ZArith Bool.
From Verif Require Import Base Fld Particle ParticleSpec Index Phase PhaseSpec Compute ComputeSpec.
Import ListNotations.

(* the legs of corner k *)
Definition corner (cs : list (list Z)) (k : Z) : list Z := match getitem cs k with Ok c => c | Err _ => [] end.
Definition in_range (cs : list (list Z)) (k : Z) : Prop := (1 <= k <= zlen cs)%Z.
(* a string over the clusters, written out over the legs *)
Definition xlabel (cs : list (list Z)) (k : Z) : Z := hd 0%Z (corner cs k).
Definition xentry (cs : list (list Z)) (e : entry) : entry :=
  (xlabel cs (fst e), map (pair true) (tl (corner cs (fst e))) ++ flat_map (fun x => map (pair (fst x)) (corner cs (snd x))) (snd e)).
Definition expand (cs : list (list Z)) (e : inv) : inv :=
  match e with
  | ITr5 a b c d => ITr5 (xentry cs a) (xentry cs b) (xentry cs c) (xentry cs d)
  | ITr es => ITr (map (xentry cs) es)
  | IDelta l => IDelta (map (flat_map (corner cs)) l)
  | IM i => IS (corner cs i) | IS l => IS (flat_map (corner cs) l)
  | IA2 a b => IA2 (xlabel cs a) (xlabel cs b) | IAu a => IAu (xlabel cs a) | IAd b => IAd (xlabel cs b)
  | IS2 a b => IS2 (xlabel cs a) (xlabel cs b) | ISu a => ISu (xlabel cs a) | ISd b => ISd (xlabel cs b)
  | IChain o a es d c => IChain o (xlabel cs a) (map (xentry cs) es) (xlabel cs d) c
  | IOpenBegin es d c => IOpenBegin (map (xentry cs) es) (xlabel cs d) c
  | IOpenEnd o a es => IOpenEnd o (xlabel cs a) (map (xentry cs) es)
  | IDouble es => IDouble (map (xentry cs) es)
  | e => e
  end.
(* the labels of an entry name clusters *)
Definition entry_ok (cs : list (list Z)) (e : entry) : Prop :=
  in_range cs (fst e) /\ Forall (fun x => in_range cs (snd x)) (snd e).
(* a cluster that is one leg *)
Definition single (cs : list (list Z)) (k : Z) : Prop := exists i, getitem cs k = Ok [i].
(* an entry of tr5 that is written with one character before and after, or neither *)
Definition tr5_entry_ok (cs : list (list Z)) (e : entry) : Prop := entry_ok cs e /\ one_char (xentry cs e) = one_char e.
(* strings over clusters whose spinors, if any, are those of one-leg clusters *)
Definition over_clusters (cs : list (list Z)) (e : inv) : Prop :=
  match e with
  | ITr5 a b c d => tr5_entry_ok cs a /\ tr5_entry_ok cs b /\ tr5_entry_ok cs c /\ tr5_entry_ok cs d
  | ITr es | IDouble es => Forall (entry_ok cs) es
  | IDelta l => Forall (Forall (in_range cs)) l
  | IM i => in_range cs i | IS l => Forall (in_range cs) l
  | IA2 a b | IS2 a b => single cs a /\ single cs b
  | IAu a | IAd a | ISu a | ISd a => single cs a
  | IChain _ a es d _ => single cs a /\ Forall (entry_ok cs) es /\ single cs d
  | IOpenBegin es d _ => Forall (entry_ok cs) es /\ single cs d
  | IOpenEnd _ a es => single cs a /\ Forall (entry_ok cs) es
  | IOm _ | IPi _ | IDelta3 _ | Id5 => False
  end.
