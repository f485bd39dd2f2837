(* C47, C49 and C53: the consistency check, points from twistors, and saving points. *)
From Coq Require Import Ascii String.
From Coq Require Import List ZArith Bool Lia Permutation Sorted.
From Verif Require Import Base Fld Particle ParticleSpec Phase PhaseSpec PhaseThm ComputeSpec FldInst Symm Str Sort SortThm Twistor TwistorThm Save SaveSpec SaveThm Properties03 Properties04.
Import ListNotations.
Open Scope fld_scope.

(* ---- C47 ---- *)
(* every invariant with a value has one place in one sorted list l of pairs (value, invariant);
   the two outputs are the ends of that list *)
Theorem C47_outliers :
  forall (I V : Type) (gt : V -> V -> bool)
    (asym : forall a b, gt a b = true -> gt b a = false) (ntrans : forall a b c, gt a b = false -> gt b c = false -> gt a c = false)
    (fuel : nat) (mom_cons on_shell : bool) (value : I -> result V) (is_nan : V -> bool) (silent : bool) (threshold inverse : V) (xs : list I) (vs : list V),
  Forall2 (fun x v => value x = Ok v) xs vs -> (silent = true \/ Forall (fun v => is_nan v = false) vs) ->
  (length xs * length xs < fuel)%nat ->
  exists l, Permutation l (combine vs xs) /\ StronglySorted (fun a b => gt (fst a) (fst b) = false) l /\
    consistency gt fuel mom_cons on_shell value is_nan silent threshold inverse xs =
      Ok (mom_cons, on_shell, map snd (filter (fun x => negb (gt inverse (fst x))) l), map snd (filter (fun x => negb (gt (fst x) threshold)) l)).
Proof.
  intros I V gt asym ntrans fuel mc os value is_nan silent threshold inverse xs vs F N FU.
  exact (consistency_thm gt asym ntrans fuel mc os value is_nan silent threshold inverse xs vs F N FU).
Qed.
Print Assumptions C47_outliers.
(* values of invariants named by numbers *)
Definition values47 (x : Z) : result Z := if (x =? 9)%Z then Err ZeroDivisionError else Ok ((x * 5) mod 7)%Z.
Example C47_outliers_ex :
  (forall a b, Z.gtb a b = true -> Z.gtb b a = false) /\ (forall a b c, Z.gtb a b = false -> Z.gtb b c = false -> Z.gtb a c = false) /\
  Forall2 (fun x v => values47 x = Ok v) [1; 2; 3; 4; 5; 6]%Z [5; 3; 1; 6; 4; 2]%Z /\
  consistency Z.gtb 40 true true values47 (fun _ => false) false 2%Z 5%Z [1; 2; 3; 4; 5; 6]%Z = Ok (true, true, [1; 4]%Z, [3; 6]%Z).
Proof.
  split; [intros a b H; apply Z.gtb_lt in H; rewrite Z.gtb_ltb; apply Z.ltb_ge; lia|].
  split; [intros a b c H1 H2; rewrite Z.gtb_ltb in *; apply Z.ltb_ge in H1, H2; apply Z.ltb_ge; lia|].
  split; [repeat constructor|]. vm_compute. reflexivity.
Qed.
(* an invariant that is not a number: the early return *)
Theorem C47_nan :
  forall (I V : Type) (gt : V -> V -> bool) (fuel : nat) (mom_cons on_shell : bool) (value : I -> result V) (is_nan : V -> bool) (threshold inverse : V) (xs : list I) (vs : list V),
  Forall2 (fun x v => value x = Ok v) xs vs -> Exists (fun v => is_nan v = true) vs ->
  consistency gt fuel mom_cons on_shell value is_nan false threshold inverse xs = Ok (false, false, [], []).
Proof. intros I V gt fuel mc os value is_nan threshold inverse xs vs F E. exact (consistency_nan gt fuel mc os value is_nan threshold inverse xs vs F E). Qed.
Print Assumptions C47_nan.
Example C47_nan_ex :
  Exists (fun v => (v =? 6)%Z = true) [5; 3; 1; 6; 4; 2]%Z /\
  consistency Z.gtb 40 true true values47 (fun v => (v =? 6)%Z) false 2%Z 5%Z [1; 2; 3; 4; 5; 6]%Z = Ok (false, false, [], []) /\
  consistency Z.gtb 40 true true values47 (fun v => (v =? 6)%Z) true 2%Z 5%Z [1; 2; 3; 4; 5; 6]%Z = Ok (true, true, [1; 4]%Z, [3; 6]%Z).
Proof. split; [|split; vm_compute; reflexivity]. do 3 apply Exists_cons_tl. apply Exists_cons_hd. reflexivity. Qed.
(* an invariant that cannot be computed: nothing is reported *)
Theorem C47_error :
  forall (I V : Type) (gt : V -> V -> bool) (fuel : nat) (mom_cons on_shell : bool) (value : I -> result V) (is_nan : V -> bool) (silent : bool) (threshold inverse : V)
    (xs : list I) (x : I) (e : exn), In x xs -> value x = Err e ->
  consistency gt fuel mom_cons on_shell value is_nan silent threshold inverse xs = Ok (false, false, [], []) \/
  exists e', consistency gt fuel mom_cons on_shell value is_nan silent threshold inverse xs = Err e'.
Proof.
  intros I V gt fuel mc os value is_nan silent threshold inverse xs x e IN E.
  destruct (consistency_err gt fuel mc os value is_nan silent threshold inverse xs x e IN E) as (r & <- & H). exact H.
Qed.
Print Assumptions C47_error.
Example C47_error_ex : consistency Z.gtb 40 true true values47 (fun _ => false) false 2%Z 5%Z [1; 9; 3]%Z = Err ZeroDivisionError.
Proof. vm_compute. reflexivity. Qed.
(* the invariants looked at when none are given *)
Theorem C47_default :
  forall n : nat, NoDup (default_invars n) /\ forall (angle : bool) (x y : Z), In (angle, (x, y)) (default_invars n) <-> (1 <= x < y)%Z /\ (y <= Z.of_nat n)%Z.
Proof. intros n. exact (default_thm n). Qed.
Print Assumptions C47_default.
Example C47_default_ex : default_invars 3 = [(true, (1, 2)); (true, (1, 3)); (true, (2, 3)); (false, (1, 2)); (false, (1, 3)); (false, (2, 3))]%Z.
Proof. reflexivity. Qed.

(* ---- C49 ---- *)
Theorem C49_physical :
  forall (K : Fld) (cv : convention) (zs : list (v2 K * v2 K)) (s s' : ps K), Forall (fun p => consistent p) s -> length zs = length s ->
  randomise_twistor cv zs s = Ok s' ->
  length s' = length s /\ total_mom s' = mzero /\ Forall (fun p => consistent p /\ lsq p = 0) s'.
Proof. intros K cv zs s s' C L H. exact (twistor_returned cv zs s C L s' H). Qed.
Print Assumptions C49_physical.
Theorem C49_returns :
  forall (K : Fld) (zs : list (v2 K * v2 K)) (s : ps K) (i : K), Forall (fun p => consistent p /\ l_d p <> None) s -> length zs = length s -> fimag = Some i ->
  ((exists s', randomise_twistor Symmetric zs s = Ok s') <->
   forall k, (k < length s)%nat ->
     let z := fst (nth k zs (V2 0 0, V2 0 0)) in let z' := fst (nth ((k + 1) mod length s) zs (V2 0 0, V2 0 0)) in e0 z * e1 z' - e1 z * e0 z' <> 0).
Proof.
  intros K zs s i C L I. rewrite (twistor_returns zs s i C L I).
  assert (Q : forall a b : v2 K, vdot (raise_r b) a = e0 a * e1 b - e1 a * e0 b) by (intros a b; apply raise_dot).
  split; intros H k Hk; specialize (H k Hk); cbv zeta in *; unfold lam in *; rewrite Q in *; exact H.
Qed.
Print Assumptions C49_returns.
Definition zs49 : list (v2 GF13 * v2 GF13) :=
  [(V2 (g13 1) (g13 2), V2 (g13 3) (g13 5)); (V2 (g13 4) (g13 1), V2 (g13 7) (g13 2)); (V2 (g13 2) (g13 9), V2 (g13 1) (g13 1));
   (V2 (g13 6) (g13 5), V2 (g13 0) (g13 8)); (V2 (g13 3) (g13 1), V2 (g13 12) (g13 4)); (V2 (g13 8) (g13 11), V2 (g13 2) (g13 6))].
Example C49_returns_ex : exists s', randomise_twistor Symmetric zs49 ex6 = Ok s' /\ total_mom s' = mzero /\ ~ Forall (fun p => r2 p = mzero) s'.
Proof.
  exists (get_ok [] (randomise_twistor Symmetric zs49 ex6)). split; [fok|]. split; [apply meqb_ok; vm_compute; reflexivity|].
  intros F. assert (H : forallb (fun p => meqb (r2 p) mzero) (get_ok [] (randomise_twistor Symmetric zs49 ex6)) = true).
  { apply forallb_forall. rewrite Forall_forall in F. intros p Hp. apply meqb_ok, F, Hp. }
  apply Bool.not_true_iff_false in H; [exact H|]. vm_compute. reflexivity.
Qed.
(* one particle cannot be generated in this way, two get zero momenta *)
Theorem C49_one :
  forall (K : Fld) (cv : convention) (z : v2 K * v2 K) (p : particle K), consistent p -> l_d p <> None -> randomise_twistor cv [z] [p] = Err ZeroDivisionError.
Proof. intros K cv z p C N. exact (twistor_one cv z p C N). Qed.
Print Assumptions C49_one.

(* ---- C53 ---- *)
(* a first call writes a new file, and nothing but it changes *)
Theorem C53_first :
  forall (C : Type) (invariant : pystr) (point : C) (directory : dict C), dict_get (stem invariant ++ lit "1.m") directory = None ->
  dict_get (stem invariant ++ lit "1.m") (save invariant point directory) = Some point /\
  (forall name, name <> stem invariant ++ lit "1.m" -> dict_get name (save invariant point directory) = dict_get name directory).
Proof. intros C i v fs H. exact (save_first i v fs H). Qed.
Print Assumptions C53_first.
(* a later call writes the second file, and nothing but it changes *)
Theorem C53_later :
  forall (C : Type) (invariant : pystr) (point : C) (directory : dict C), dict_get (stem invariant ++ lit "1.m") directory <> None ->
  dict_get (stem invariant ++ lit "12.m") (save invariant point directory) = Some point /\
  (forall name, name <> stem invariant ++ lit "12.m" -> dict_get name (save invariant point directory) = dict_get name directory).
Proof. intros C i v fs H. exact (save_later i v fs H). Qed.
Print Assumptions C53_later.
(* the first file is never changed by any sequence of calls; the second by the third call *)
Theorem C53_first_forever :
  forall (C : Type) (invariant : pystr) (point : C) (calls : list (pystr * C)) (directory : dict C),
  dict_get (stem invariant ++ lit "1.m") directory = Some point -> dict_get (stem invariant ++ lit "1.m") (saves calls directory) = Some point.
Proof. intros C i v l fs H. exact (first_kept i v l fs H). Qed.
Print Assumptions C53_first_forever.
Theorem C53_two :
  forall (C : Type) (invariant : pystr) (one two : C) (directory : dict C), dict_get (stem invariant ++ lit "1.m") directory = None ->
  dict_get (stem invariant ++ lit "1.m") (saves [(invariant, one); (invariant, two)] directory) = Some one /\
  dict_get (stem invariant ++ lit "12.m") (saves [(invariant, one); (invariant, two)] directory) = Some two.
Proof. intros C i v w fs H. exact (two_kept i v w fs H). Qed.
Print Assumptions C53_two.
Theorem C53_third :
  forall (C : Type) (invariant : pystr) (one two three : C) (directory : dict C), dict_get (stem invariant ++ lit "1.m") directory = None ->
  let directory' := saves [(invariant, one); (invariant, two); (invariant, three)] directory in
  dict_get (stem invariant ++ lit "12.m") directory' = Some three /\
  (forall name, name <> stem invariant ++ lit "1.m" -> name <> stem invariant ++ lit "12.m" -> dict_get name directory' = dict_get name directory).
Proof. intros C i u v w fs H. exact (third_lost i u v w fs H). Qed.
Print Assumptions C53_third.
Example C53_ex : map fst (saves [(lit "[1|2]", 1%Z); (lit "s_123", 2%Z); ([], 3%Z); (lit "[1|2]", 4%Z)] []) = [lit "S1V2S1.m"; lit "s_1231.m"; lit "NoLimit1.m"; lit "S1V2S12.m"].
Proof. vm_compute. reflexivity. Qed.
(* the property as stated is false: after three calls the second point is in no file *)
Theorem C53_third_refuted :
  exists (invariant : pystr) (directory : dict Z), dict_get (stem invariant ++ lit "1.m") directory = None /\
    forall name, dict_get name (saves [(invariant, 1%Z); (invariant, 2%Z); (invariant, 3%Z)] directory) <> Some 2%Z.
Proof.
  exists (lit "[1|2]"), []. split; [reflexivity|]. intros name.
  change (saves _ _) with [(lit "S1V2S1.m", 1%Z); (lit "S1V2S12.m", 3%Z)]. cbn [dict_get]. destruct (str_eqb _ _); [discriminate|]. destruct (str_eqb _ _); discriminate.
Qed.
Print Assumptions C53_third_refuted.
