(* The invariants that the words of an expression stand for. *)
From Coq Require Import List ZArith Bool.
From Verif Require Import Base Fld Phase Compute Symm ParseSpec.
Import ListNotations.
Open Scope Z_scope.

(* 2-3+4 is the momentum of 2, without that of 3, with that of 4 *)
Definition entry_of (m : slot) : entry := match m with Slot _ i l => (i, map (fun x => (negb (fst x), snd x)) l) end.
(* s_123 is of the legs 1, 2, 3, one for each digit; tr5 has four places *)
Definition named (a : ParseSpec.inv) : option Compute.inv :=
  match a with
  | Ang i j => Some (IA2 i j)
  | Sq i j => Some (IS2 i j)
  | Man n => Some (IS (str n))
  | WChain l i m ms j r => Some (IChain (if l then OAng else OSq) i (map entry_of (m :: ms)) j (if r then CAng else CSq))
  | WTr m ms => Some (ITr (map entry_of (m :: ms)))
  | WTr5 a [b; c; d] => Some (ITr5 (entry_of a) (entry_of b) (entry_of c) (entry_of d))
  | WTr5 _ _ => None
  | WTr5n n => match str n with [a; b; c; d] => Some (ITr5 (a, []) (b, []) (c, []) (d, [])) | _ => None end
  | WOm n => Some (IOm (str n))
  | WPi n => Some (IPi (str n))
  | WDel n m ns => Some (IDelta (map str (n :: m :: ns)))
  end.
(* the number that it is at a point *)
Definition at_point {K : Fld} (s : ps K) (a : ParseSpec.inv) : option K :=
  match named a with
  | Some i => match compute s i with Ok (VS x) => Some x | _ => None end
  | None => None
  end.
