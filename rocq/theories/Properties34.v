(* C93: the substitutions of tools.py. *)
From Coq Require Import Ascii String.
From Coq Require Import List ZArith Bool Lia.
From Verif Require Import Base Symm Str SubsSpec SubsThm Text.
Import ListNotations.
Open Scope Z_scope.

(* C93: subs_dict replaces from left to right the first key of the dictionary that fits *)
Theorem C93_subs : forall (d : list (list Z * list Z)) t, d <> [] -> (forall e, In e d -> fst e <> []) ->
  (exists u, subs_dict t d = Ok u) /\ forall u, subs_dict t d = Ok u <-> replaced d t u.
Proof. intros d t N NE. split; [exact (subs_total d t N NE)|intros u; exact (subs_iff d t u N NE)]. Qed.
Print Assumptions C93_subs.
Example C93_subs_ex : subs_dict (lit "m_1+m_12+x") [(lit "m_12", lit "M"); (lit "m_1", lit "m")] = Ok (lit "m+M+x") /\
  subs_dict (lit "m_1+m_12+x") [(lit "m_1", lit "m"); (lit "m_12", lit "M")] = Ok (lit "m+m2+x").
Proof. split; vm_compute; reflexivity. Qed.
(* C93: a key behind a key with which it begins is never found *)
Theorem C93_shadow : forall (d1 d2 d3 : list (list Z * list Z)) k1 v1 k2 v2 t, begins k1 k2 ->
  subs_dict t (d1 ++ (k1, v1) :: d2 ++ (k2, v2) :: d3) = subs_dict t (d1 ++ (k1, v1) :: d2 ++ d3).
Proof. exact subs_shadow. Qed.
Print Assumptions C93_shadow.
Example C93_shadow_ex : begins (lit "m_1") (lit "m_12").
Proof. exists (lit "2"). reflexivity. Qed.
(* C93: rsubs_dict undoes subs_dict for single characters *)
Theorem C93_round_trip : forall (l : list (Z * Z)) t u, l <> [] -> NoDup (map fst l) -> NoDup (map snd l) ->
  (forall c, In c t -> In c (map snd l) -> In c (map fst l)) ->
  subs_dict t (map (fun kv => ([fst kv], [snd kv])) l) = Ok u -> rsubs_dict u (map (fun kv => ([fst kv], [snd kv])) l) = Ok t.
Proof. exact round_trip. Qed.
Print Assumptions C93_round_trip.
Example C93_round_trip_ex : let l := [(97, 98); (98, 97); (99, 120)] in l <> [] /\ NoDup (map fst l) /\ NoDup (map snd l) /\
  (forall c, In c (lit "abcz") -> In c (map snd l) -> In c (map fst l)) /\ subs_dict (lit "abcz") (map (fun kv => ([fst kv], [snd kv])) l) = Ok (lit "baxz").
Proof.
  cbv zeta. split; [discriminate|]. split; [repeat constructor; cbn; intuition discriminate|]. split; [repeat constructor; cbn; intuition discriminate|].
  split; [intros c H K; vm_compute in H, K |- *; lia|vm_compute; reflexivity].
Qed.
(* C93 does not hold if the text contains a value, or a key has more than one character *)
Theorem C93_round_trip_refuted :
  (exists d t u, d <> [] /\ (forall e, In e d -> length (fst e) = 1%nat /\ length (snd e) = 1%nat) /\ subs_dict t d = Ok u /\ rsubs_dict u d <> Ok t) /\
  (exists d t u, d <> [] /\ NoDup (map fst d) /\ NoDup (map snd d) /\ (forall e c, In e d -> In c (snd e) -> ~ In c t) /\ (forall e, In e d -> fst e <> [] /\ snd e <> []) /\ subs_dict t d = Ok u /\ rsubs_dict u d <> Ok t).
Proof.
  split.
  - exists [(lit "a", lit "b")], (lit "ab"), (lit "bb"). split; [discriminate|]. split; [intros e [<-|[]]; auto|]. split; [vm_compute; reflexivity|]. vm_compute. discriminate.
  - exists [(lit "a", lit "x"); (lit "b", lit "xx")], (lit "b"), (lit "xx"). split; [discriminate|]. split; [repeat constructor; cbn; intuition discriminate|]. split; [repeat constructor; cbn; intuition discriminate|].
    split; [intros e c [<-|[<-|[]]] H K; vm_compute in H, K; lia|]. split; [intros e [<-|[<-|[]]]; split; discriminate|]. split; [vm_compute; reflexivity|]. vm_compute. discriminate.
Qed.
Print Assumptions C93_round_trip_refuted.
(* C93: an empty dictionary is an error for every text (tools.py:70-71: the pattern is empty) *)
Theorem C93_empty : forall t, subs_dict t [] = Err KeyError /\ rsubs_dict t [] = Err KeyError.
Proof. intros t. split; exact (subs_empty t). Qed.
Print Assumptions C93_empty.
