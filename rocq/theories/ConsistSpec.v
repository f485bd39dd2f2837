(* Which strings of compute pass check_consistency. *)
From Coq Require Import Ascii String.
From Coq Require Import List ZArith Bool.
From Verif Require Import Base Index Compute Str TextSpec.
Import ListNotations.
Open Scope Z_scope.

(* unicode brackets, of the kinds that fit; s with its underscore; Omega, Pi, Delta and delta5 *)
Inductive accepted : inv -> pystr -> Prop :=
| acc_chain o a es t d c : 0 <= a -> 0 <= d -> shows_entries es t -> o <> OLt -> bracket_ok o (length es) c = true ->
    accepted (IChain o a es d c) (opening o ++ dec a ++ lit "|" ++ t ++ lit "|" ++ dec d ++ closing c)
| acc_A2 a b : 0 <= a -> 0 <= b -> accepted (IA2 a b) (opening OAng ++ dec a ++ lit "|" ++ dec b ++ closing CAng)
| acc_S2 a b : 0 <= a -> 0 <= b -> accepted (IS2 a b) (lit "[" ++ dec a ++ lit "|" ++ dec b ++ lit "]")
| acc_S ls l : In l [lit "s"; lit "S"] -> legs ls -> accepted (IS ls) (l ++ lit "_" ++ digits_text ls)
| acc_Om l : legs l -> accepted (IOm l) ([937; 95] ++ digits_text l)
| acc_Pi l : legs l -> accepted (IPi l) ([928; 95] ++ digits_text l)
| acc_Delta cs t : (2 <= length cs)%nat -> shows_corners cs t -> accepted (IDelta cs) ([916; 95] ++ t)
| acc_Delta3 l : legs l -> accepted (IDelta3 l) ([916; 95] ++ digits_text l)
| acc_delta5 : accepted Id5 [948; 53].
(* too short for the characters that the check looks at *)
Inductive too_short : pystr -> Prop :=
| short_nil : too_short []
| short_letter c : In c [115; 83; 916; 937; 928; 948] -> too_short [c]
| short_tr5 : too_short (lit "tr5")
| short_tr5_ c : too_short (lit "tr5" ++ [c]).
