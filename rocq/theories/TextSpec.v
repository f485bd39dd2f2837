(* How the strings of compute are written, independently of how they are read. *)
From Coq Require Import Ascii String.
From Coq Require Import List ZArith Bool.
From Verif Require Import Base Fld Particle Index Phase Compute Str.
Import ListNotations.
Open Scope Z_scope.

(* an entry between two bars: 2, 2+3, 12-3+4, possibly in round brackets *)
Definition sign_text (plus : bool) : pystr := if plus then lit "+" else lit "-".
Definition entry_text (e : entry) : pystr := dec (fst e) ++ concat (map (fun x => sign_text (fst x) ++ dec (snd x)) (snd e)).
Definition entry_ok (e : entry) : Prop := 0 <= fst e /\ Forall (fun x => 0 <= snd x) (snd e).
Inductive shows_entry : entry -> pystr -> Prop :=
| bare e : entry_ok e -> shows_entry e (entry_text e)
| round e : entry_ok e -> shows_entry e (lit "(" ++ entry_text e ++ lit ")").
(* entries with bars between them *)
Inductive shows_entries : list entry -> pystr -> Prop :=
| last_entry e t : shows_entry e t -> shows_entries [e] t
| next_entry e t es u : shows_entry e t -> shows_entries es u -> shows_entries (e :: es) (t ++ lit "|" ++ u).
(* the same without round brackets *)
Inductive shows_bare : list entry -> pystr -> Prop :=
| last_bare e : entry_ok e -> shows_bare [e] (entry_text e)
| next_bare e es u : entry_ok e -> shows_bare es u -> shows_bare (e :: es) (entry_text e ++ lit "|" ++ u).
(* labels of one digit, without anything between them *)
Definition one_digit (i : Z) : Prop := 0 <= i <= 9.
Definition digits_text (l : list Z) : pystr := map (Z.add 48) l.
Definition legs (l : list Z) : Prop := l <> [] /\ Forall one_digit l.
(* 12|34|56 *)
Inductive shows_corners : list (list Z) -> pystr -> Prop :=
| last_corner l : legs l -> shows_corners [l] (digits_text l)
| next_corner l ls u : legs l -> shows_corners ls u -> shows_corners (l :: ls) (digits_text l ++ lit "|" ++ u).
(* the brackets: unicode (10216, 10217) or ascii *)
Definition opening (o : obr) : pystr := match o with OAng => [10216] | OLt => lit "<" | OSq => lit "[" end.
Definition closing (c : cbr) : pystr := match c with CAng => [10217] | CGt => lit ">" | CSq => lit "]" end.
Definition angle_open (o : obr) : Prop := o = OAng \/ o = OLt.
Definition angle_close (c : cbr) : Prop := c = CAng \/ c = CGt.
(* the underscore of s_12 and m_1 may be left out *)
Definition underscore (u : pystr) : Prop := u = lit "_" \/ u = [].

(* the string e may be written as the text *)
Inductive shows : inv -> pystr -> Prop :=
| w_tr5 a b c d : Forall one_digit [a; b; c; d] -> shows (ITr5 (a, []) (b, []) (c, []) (d, [])) (lit "tr5_" ++ digits_text [a; b; c; d])
| w_tr5_round a b c d t : shows_bare [a; b; c; d] t -> shows (ITr5 a b c d) (lit "tr5(" ++ t ++ lit ")")
| w_tr es t : shows_entries es t -> shows (ITr es) (lit "tr(" ++ t ++ lit ")")
| w_Om l : legs l -> shows (IOm l) ([937; 95] ++ digits_text l)
| w_Pi l : legs l -> shows (IPi l) ([928; 95] ++ digits_text l)
| w_Delta cs t : (2 <= length cs)%nat -> shows_corners cs t -> shows (IDelta cs) ([916; 95] ++ t)
| w_Delta3 l : legs l -> shows (IDelta3 l) ([916; 95] ++ digits_text l)
| w_delta5 : shows Id5 [948; 53]
| w_M i l u : In l [lit "m"; lit "M"] -> underscore u -> one_digit i -> shows (IM i) (l ++ u ++ digits_text [i])
| w_S ls l u : In l [lit "s"; lit "S"] -> underscore u -> legs ls -> shows (IS ls) (l ++ u ++ digits_text ls)
| w_A2 a b o c : 0 <= a -> 0 <= b -> angle_open o -> angle_close c -> shows (IA2 a b) (opening o ++ dec a ++ lit "|" ++ dec b ++ closing c)
| w_Au a o : 0 <= a -> angle_open o -> shows (IAu a) (opening o ++ dec a ++ lit "|")
| w_Ad b c : 0 <= b -> angle_close c -> shows (IAd b) (lit "|" ++ dec b ++ closing c)
| w_S2 a b : 0 <= a -> 0 <= b -> shows (IS2 a b) (lit "[" ++ dec a ++ lit "|" ++ dec b ++ lit "]")
| w_Su a : 0 <= a -> shows (ISu a) (lit "|" ++ dec a ++ lit "]")
| w_Sd b : 0 <= b -> shows (ISd b) (lit "[" ++ dec b ++ lit "|")
| w_chain o a es t d c : 0 <= a -> 0 <= d -> shows_entries es t ->
    shows (IChain o a es d c) (opening o ++ dec a ++ lit "|" ++ t ++ lit "|" ++ dec d ++ closing c)
(* open chains: unicode brackets, and round brackets only around a single entry *)
| w_open_begin es t d c : 0 <= d -> c <> CGt -> (shows_bare es t \/ length es = 1%nat /\ shows_entries es t) ->
    shows (IOpenBegin es d c) (lit "|" ++ t ++ lit "|" ++ dec d ++ closing c)
| w_open_end o a es t : 0 <= a -> o <> OLt -> (shows_bare es t \/ length es = 1%nat /\ shows_entries es t) ->
    shows (IOpenEnd o a es) (opening o ++ dec a ++ lit "|" ++ t ++ lit "|")
| w_double es t : (shows_bare es t \/ length es = 1%nat /\ shows_entries es t) -> shows (IDouble es) (lit "|" ++ t ++ lit "|").

(* the same text with some digits written in bold *)
Inductive in_bold : pystr -> pystr -> Prop :=
| bold_nil : in_bold [] []
| bold_same c t u : in_bold t u -> in_bold (c :: t) (c :: u)
| bold_digit d t u : one_digit d -> in_bold t u -> in_bold (48 + d :: t) (120782 + d :: u).

(* a sum of legs as an entry: k1+k2+... *)
Definition sum_entry (m : list Z) : entry := (hd 0 m, map (pair true) (tl m)).
(* at least one leg in each part, at least one part *)
Definition parts_ok (ms : list (list Z)) : Prop := ms <> [] /\ Forall (fun m => m <> [] /\ Forall (fun k => 0 <= k) m) ms.

(* the four spinors of a leg that have a string of their own *)
Inductive side := RRow | RCol | LCol | LRow.
Inductive spinor_text (i : Z) : side -> pystr -> Prop :=
| t_rrow o : 0 <= i -> angle_open o -> spinor_text i RRow (opening o ++ dec i ++ lit "|")
| t_rcol c : 0 <= i -> angle_close c -> spinor_text i RCol (lit "|" ++ dec i ++ closing c)
| t_lcol : 0 <= i -> spinor_text i LCol (lit "|" ++ dec i ++ lit "]")
| t_lrow : 0 <= i -> spinor_text i LRow (lit "[" ++ dec i ++ lit "|").
Section Read.
Context {K : Fld}.
(* what a spinor of a leg is, and how it is returned *)
Definition side_get (d : side) (p : particle K) : option (v2 K) := match d with RRow => r_u p | RCol => r_d p | LCol => l_u p | LRow => l_d p end.
Definition side_val (d : side) (v : v2 K) : val K := match d with RRow | LRow => VRow v | RCol | LCol => VCol v end.
(* the spinors of the other kind: left for right and right for left *)
Definition other_side (d : side) : list side := match d with RRow | RCol => [LCol; LRow] | LCol | LRow => [RRow; RCol] end.
End Read.

(* every leg of the point has its four spinors *)
Definition spinors_all {K : Fld} (s : ps K) : Prop := Forall (fun p => forall d, side_get d p <> None) s.
(* an order of the elements of a set of integers *)
Definition set_order (iset : list Z -> list Z) : Prop := forall l x, In x (iset l) <-> In x l.
