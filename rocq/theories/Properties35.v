(* C94: Particles.subs.  Tightening of C79: slices of arrays. *)
From Coq Require Import List ZArith Bool Lia.
From Verif Require Import Base Fld FldInst Parse Tensor CutSpec CutThm PartSubs PartSubsSpec PartSubsThm.
Import ListNotations.

(* C94: after subs a component that is not a bare power has the value of the old one with the values of the dictionary *)
Theorem C94_value : forall (K : Fld) md d (e : component K) a, @mod_int K md = f0 -> ~ bare_power e ->
  component_value mod_int a (subs_component md d e) = component_value mod_int (updated mod_int a d) e.
Proof. intros K. exact (@subs_value K). Qed.
Print Assumptions C94_value.
(* C94: if every symbol gets an integer the component becomes a number of the field *)
Theorem C94_numbers : forall (K : Fld) md d (e : component K), @mod_int K md = f0 -> ~ bare_power e -> (forall p, e = CExpr p -> exists c m x n, In (c, m) p /\ In (x, n) m) ->
  (forall y p, In (y, p) d -> exists c, p = [(c, [])]) -> (forall p c m x n, e = CExpr p -> In (c, m) p -> In (x, n) m -> exists v, In (x, v) d) ->
  subs_component md d e = CNum (component_value mod_int (updated mod_int (fun _ => f0) d) e).
Proof. intros K. exact (@all_numbers K). Qed.
Print Assumptions C94_numbers.
(* C94: a power of one symbol is left as it is *)
Theorem C94_power : forall (K : Fld) md d (e : component K), bare_power e -> subs_component md d e = e.
Proof. intros K. exact (@power_kept K). Qed.
Print Assumptions C94_power.
(* C94: the four components of each leg, and nothing else *)
Theorem C94_point : forall (K : Fld) md d (s : list ((component K * component K) * (component K * component K))), length (subs_point md d s) = length s /\
  forall i r1 r2 l1 l2, nth_error s i = Some ((r1, r2), (l1, l2)) ->
    nth_error (subs_point md d s) i = Some ((subs_component md d r1, subs_component md d r2), (subs_component md d l1, subs_component md d l2)).
Proof. intros K. exact (@point_legs K). Qed.
Print Assumptions C94_point.
(* C94: the values of all components of a point, once and twice *)
Theorem C94_points : forall (K : Fld) md d s a, @mod_int K md = f0 -> no_powers s -> point_values (@mod_int K) a (subs_point md d s) = point_values (@mod_int K) (updated mod_int a d) s.
Proof. intros K. exact (@point_value K). Qed.
Print Assumptions C94_points.
Theorem C94_twice : forall (K : Fld) md d1 d2 s a, @mod_int K md = f0 -> no_powers s -> no_powers (subs_point md d1 s) ->
  point_values (@mod_int K) a (subs_point md d2 (subs_point md d1 s)) = point_values (@mod_int K) (updated mod_int (updated mod_int a d2) d1) s.
Proof. intros K. exact (@subs_twice K). Qed.
Print Assumptions C94_twice.
(* C94: a relation that holds for all values of the symbols, such as the conservation of momentum, holds after subs *)
Theorem C94_relation : forall (K : Fld) md d s (P : list ((K * K) * (K * K)) -> Prop), @mod_int K md = f0 -> no_powers s ->
  (forall a, P (point_values (@mod_int K) a s)) -> forall a, P (point_values (@mod_int K) a (subs_point md d s)).
Proof. intros K. exact (@relation_kept K). Qed.
Print Assumptions C94_relation.
(* two legs with spinors (t, 1), (1, t + 2) and (t, 1), (-1, - t - 2): the momenta add up to zero for all t, and t = 3 *)
Definition sy (n : Z) : component GF13 := CExpr [(1%Z, [(n, 1%nat)])].
Definition ex_s : list ((component GF13 * component GF13) * (component GF13 * component GF13)) :=
  [((sy 0, CNum f1), (CNum f1, CExpr [(1%Z, [(0%Z, 1%nat)]); (2%Z, [])])); ((sy 0, CNum f1), (CNum (fopp f1), CExpr [((-1)%Z, [(0%Z, 1%nat)]); ((-2)%Z, [])]))].
Definition conserved (v : list ((GF13 * GF13) * (GF13 * GF13))) : Prop :=
  fold_right (fun p x => (fst (fst p) * fst (snd p) + x)%fld) f0 v = f0 /\ fold_right (fun p x => (fst (fst p) * snd (snd p) + x)%fld) f0 v = f0 /\
  fold_right (fun p x => (snd (fst p) * fst (snd p) + x)%fld) f0 v = f0 /\ fold_right (fun p x => (snd (fst p) * snd (snd p) + x)%fld) f0 v = f0.
Add Field Kfpsubex : (fth GF13).
Lemma twice_opposite : forall (a : Z -> GF13), conserved (point_values (@mod_int GF13) a ex_s).
Proof.
  intros a. pose proof (morph_opp (@int_morph GF13) 1%Z) as H1. pose proof (morph_opp (@int_morph GF13) 2%Z) as H2. pose proof (@int_1 GF13) as H0. cbn [Z.opp] in H1, H2.
  unfold conserved, ex_s, point_values, component_value, sy, value, product, power. cbn [map fold_right fst snd]. rewrite H1, H2, H0. generalize (@mod_int GF13 2). intros w. generalize (a 0%Z). intros t. repeat split; ring.
Qed.
Example C94_relation_ex : no_powers ex_s /\ (forall a, conserved (point_values (@mod_int GF13) a ex_s)) /\ no_powers (subs_point 13 [(0%Z, [(3%Z, [])])] ex_s).
Proof.
  split; [|split; [exact twice_opposite|]]; intros r1 r2 l1 l2 I; (destruct I as [I|[I|[]]]; injection I as <- <- <- <-; (repeat split; intros (x & n & E & N); try discriminate; injection E as <- <-; congruence)).
Qed.
(* C94: internal masses; names are kept *)
Theorem C94_mass : forall (K : Fld) md d a, (forall t, subs_mass md d (@MName K t) = MName t) /\
  forall (e : component K), @mod_int K md = f0 -> ~ bare_power e ->
  exists e', subs_mass md d (MComp e) = MComp e' /\ component_value mod_int (updated mod_int a d) e = component_value mod_int a e'.
Proof. intros K md d a. split; [reflexivity|]. intros e M N. exact (mass_value md d e a M N). Qed.
Print Assumptions C94_mass.
(* C94: a component that changes has coefficients between - characteristic / 2 and characteristic / 2 *)
Theorem C94_reduced : forall (K : Fld) md d (e : component K) q c m, (0 < md)%Z -> subs_component md d e = CExpr q -> e <> CExpr q -> In (c, m) q -> (- md <= 2 * c <= md)%Z.
Proof. intros K. exact (@reduced K). Qed.
Print Assumptions C94_reduced.
(* 2*x*y + x^2 + 5 with x = 3, and then y = 4 *)
Definition ex_e : component GF13 := CExpr [(2%Z, [(0%Z, 1%nat); (1%Z, 1%nat)]); (1%Z, [(0%Z, 2%nat)]); (5%Z, [])].
Definition is_num (e : component GF13) (x : GF13) : bool := match e with CNum y => feqb x y | _ => false end.
Lemma num_ok e x : is_num e x = true -> e = CNum x.
Proof. destruct e; [|discriminate]. unfold is_num. intros H. apply feqb_ok in H. congruence. Qed.
Example C94_ex : @mod_int GF13 13 = f0 /\ ~ bare_power ex_e /\
  subs_component 13 [(0%Z, [(3%Z, [])])] ex_e = CExpr [(6%Z, [(1%Z, 1%nat)]); (1%Z, [])] /\
  subs_component 13 [(1%Z, [(4%Z, [])])] (subs_component 13 [(0%Z, [(3%Z, [])])] ex_e) = CNum (g13 12).
Proof.
  split; [fcomp|]. split; [intros (x & n & E & _); discriminate|]. split; [vm_compute; reflexivity|]. apply num_ok. vm_compute. reflexivity.
Qed.
Example C94_power_ex : bare_power (CExpr [(1%Z, [(7%Z, 2%nat)])] : component GF13).
Proof. exists 7%Z, 2%nat. split; [reflexivity|discriminate]. Qed.
(* C94 does not hold for powers: x*y with x = y = t is t^2 and keeps this value when t gets the value 3 *)
Theorem C94_pow_refuted : exists md d1 d2 (e : component GF13) a, @mod_int GF13 md = f0 /\ ~ bare_power e /\
  component_value mod_int a (subs_component md d2 (subs_component md d1 e)) <> component_value mod_int (updated mod_int (updated mod_int a d2) d1) e.
Proof.
  exists 13%Z, [(0%Z, [(1%Z, [(2%Z, 1%nat)])]); (1%Z, [(1%Z, [(2%Z, 1%nat)])])], [(2%Z, [(3%Z, [])])], (CExpr [(1%Z, [(0%Z, 1%nat); (1%Z, 1%nat)])]), (fun _ => f0).
  split; [fcomp|]. split; [intros (x & n & E & _); discriminate|]. fneq.
Qed.
Print Assumptions C94_pow_refuted.
(* C94: x + 3 with x = 13 t is the integer 3 of sympy and not a number of the field, and stays so *)
Theorem C94_integer_refuted : exists md d (e : component GF13) p, @mod_int GF13 md = f0 /\ ~ bare_power e /\ subs_component md d e = CExpr p /\
  (forall c m, In (c, m) p -> m = []) /\ forall d', subs_component md d' (subs_component md d e) = CExpr p.
Proof.
  exists 13%Z, [(0%Z, [(13%Z, [(2%Z, 1%nat)])])], (CExpr [(1%Z, [(0%Z, 1%nat)]); (3%Z, [])]), [(3%Z, [])]. split; [fcomp|]. split; [intros (x & n & E & _); discriminate|]. split; [vm_compute; reflexivity|].
  split; [intros c m [E|[]]; injection E as _ <-; reflexivity|]. intros d'. vm_compute. reflexivity.
Qed.
Print Assumptions C94_integer_refuted.

(* C79: a slice has the entries from the lower bound on and below the upper one *)
Theorem C79_slice : forall (K : Fld) (m : list (list (Parse.value K))) i j, exists m', subscript (XArr m) i j = Ok (XArr m') /\
  forall a b x, entry_at m' a b = Some x <-> entry_at m (start (fst i) + a) (start (fst j) + b) = Some x /\ below (snd i) (start (fst i) + a) /\ below (snd j) (start (fst j) + b).
Proof. intros K. exact (@slice_entries K). Qed.
Print Assumptions C79_slice.
Example C79_slice_ex : let m := map (map (@VInt GF13)) [[1; 2; 3]; [4; 5; 6]; [7; 8; 9]; [10; 11; 12]]%Z in
  subscript (XArr m) (Some 1, Some 3)%Z (Some 1, None)%Z = Ok (XArr (map (map (@VInt GF13)) [[5; 6]; [8; 9]]%Z)).
Proof. reflexivity. Qed.
