(* Tightening of C13: images by strings that are not permutations. *)
From Coq Require Import List ZArith Bool Lia.
From Verif Require Parse Tensor CutThm.
From Verif Require Import Base Fld FldInst Particle Index Phase Symm SymmSpec StableSpec StableThm Properties03 Properties04 Properties05.
Import ListNotations.

(* C13: whatever the digits, the legs are in the order of their digits, and legs with the same digit keep their order *)
Theorem C13_stable : forall (K : Fld) (perm : list Z) (s : ps K), perm <> [] -> (length s <= length perm)%nat -> different s ->
  exists s' keys, image (perm, false) s = Ok s' /\ length keys = length s' /\ length s' = length s /\ ordered keys /\ forall c, with_key c (combine keys s') = with_key c (combine perm s).
Proof. intros K. exact (@image_stable K). Qed.
Print Assumptions C13_stable.
(* C13: a string with fewer characters than there are legs *)
Theorem C13_short : forall (K : Fld) (perm : list Z) (s : ps K), perm <> [] -> (length perm < length s)%nat -> different s -> image (perm, false) s = Err IndexError.
Proof. intros K. exact (@short_string K). Qed.
Print Assumptions C13_short.
(* the string 211211: legs 2, 3, 5, 6 and then 1, 4 *)
Definition shown (r : result (ps GF13)) (l : list nat) : bool :=
  match r with Ok s => (length s =? length l)%nat && forallb (fun x => meqb (r2 (fst x)) (r2 (nth (snd x) ex6 blank))) (combine s l) | Err _ => false end.
Example C13_stable_ex : different ex6 /\ length ex6 = 6%nat /\ shown (image ([2; 1; 1; 2; 1; 1]%Z, false) ex6) [1; 2; 4; 5; 0; 3]%nat = true.
Proof. split; [apply ex6_different|]. split; [reflexivity|]. vm_compute. reflexivity. Qed.
(* C13: inverse of any string of digits: the last digit that stands for a place decides, places without a digit get 0, and
   the digit 0 stands for the last place *)
Theorem C13_inverse_any : forall perm, (forall c, In c perm -> 0 <= c <= Z.of_nat (length perm))%Z ->
  exists l, inverse perm = Ok (join l) /\ length l = length perm /\ forall k, nth k l 0%Z = match last_pos (length perm) perm k with Some j => (Z.of_nat j + 1)%Z | None => 0%Z end.
Proof. exact inverse_any. Qed.
Print Assumptions C13_inverse_any.
Theorem C13_inverse_out : forall perm, (exists c, In c perm /\ Z.of_nat (length perm) < c)%Z -> inverse perm = Err IndexError.
Proof. exact inverse_out. Qed.
Print Assumptions C13_inverse_out.
Example C13_inverse_any_ex : inverse [2; 0; 2; 1; 0]%Z = Ok [4; 3; 0; 0; 5]%Z /\ inverse [7; 1]%Z = Err IndexError.
Proof. split; vm_compute; reflexivity. Qed.

(* C79: numpy.block of rows of numbers is the array with these rows *)
Theorem C79_block : forall (K : Fld) (m : list (list (Parse.value K))) w, m <> [] -> (0 < w)%nat -> (forall r, In r m -> length r = w) ->
  Tensor.block (Tensor.XList (map (fun r => Tensor.XList (map Tensor.XNum r)) m)) = Ok (Tensor.XArr m).
Proof. intros K. exact (@CutThm.number_block K). Qed.
Print Assumptions C79_block.
Example C79_block_ex : let m := map (map (@Parse.VInt GF13)) [[1; 2]; [3; 4]; [5; 6]]%Z in m <> [] /\ forall r, In r m -> length r = 2%nat.
Proof. split; [discriminate|]. intros r [<-|[<-|[<-|[]]]]; reflexivity. Qed.
