(* Vocabulary for classes of equal ideals. *)
From Coq Require Import List ZArith Bool.
From Verif Require Import Base Fld Phase SymmSpec Str Compute Ideal IdealSpec.
Import ListNotations.

(* a boolean equivalence relation *)
Definition equivalence {B : Type} (eqv : B -> B -> bool) : Prop :=
  (forall x, eqv x x = true) /\ (forall x y, eqv x y = true -> eqv y x = true) /\
  (forall x y z, eqv x y = true -> eqv y z = true -> eqv x z = true).
(* no two values in a list of pairs (key, value) are the same *)
Definition apart {A B : Type} (eqv : B -> B -> bool) (l : list (A * B)) : Prop :=
  forall l1 x l2 y l3, l = l1 ++ x :: l2 ++ y :: l3 -> eqv (snd x) (snd y) = false.
(* polynomials in the spinor components of n legs *)
Definition in_components (n : nat) (es : list poly) : Prop := Forall (fun e => sum e /\ vars (covariant_var (Z.of_nat n)) e) es.
(* all the polynomials vanish for the values in the dictionary *)
Definition zeros {K : Fld} (d : dict K) (es : list poly) : Prop := Forall (fun e => value (fun x => dict_get x d) e = Some 0%fld) es.
(* the texts are those of polynomials that vanish for the values in the dictionary *)
Definition vanish {K : Fld} (n : nat) (d : dict K) (ts : list pystr) : Prop := exists es, ts = map text es /\ in_components n es /\ zeros d es.
(* the generators of one of the listed ideals vanish at the point *)
Definition on_union {A : Type} {K : Fld} (n : nat) (L : list (A * list pystr)) (s : ps K) : Prop :=
  exists r ts d, In (r, ts) L /\ analytical_subs_d s = Ok d /\ vanish n d ts.
(* equal ideals have equal images under permutations *)
Definition respects_images (n : nat) (ieq : list pystr -> list pystr -> bool) : Prop :=
  forall p es1 es2 I J, is_perm n p -> in_components n es1 -> in_components n es2 -> ieq (map text es1) (map text es2) = true ->
  lips_image (map text es1) (p, false) = Ok I -> lips_image (map text es2) (p, false) = Ok J -> ieq I J = true.
(* equal ideals vanish at the same points *)
Definition respects_zeros (n : nat) (K : Fld) (ieq : list pystr -> list pystr -> bool) : Prop :=
  forall es1 es2 (d : dict K), in_components n es1 -> in_components n es2 -> ieq (map text es1) (map text es2) = true ->
  vanish n d (map text es1) -> vanish n d (map text es2).
