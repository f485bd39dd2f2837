(* C89, C90: random momenta over the complex numbers, and points made of them. *)
From Coq Require Import List ZArith Bool Lia.
From Verif Require Import Base Fld FldInst Particle ParticleSpec Index Phase PhaseSpec MpcRandom MpcRandomSpec MpcRandomThm MpcPoint MpcPointThm MpcInst.
Import ListNotations.

(* C89: rand_frac always has a value, between -100 and 100 *)
Theorem C89_fraction : forall (K : Fld) (X : Cx K) d, drawn d ->
  isreal X (@rand_frac K d) /\ (@mpc_int K (snd d) * @rand_frac K d)%fld = @mpc_int K (fst d) /\
  ((@mpc_int K 100 - @rand_frac K d)%fld = f0 \/ positive X (@mpc_int K 100 - @rand_frac K d)%fld) /\ ((@mpc_int K 100 + @rand_frac K d)%fld = f0 \/ positive X (@mpc_int K 100 + @rand_frac K d)%fld).
Proof. intros K X. exact (frac_ok X). Qed.
Print Assumptions C89_fraction.
(* C89: the loop takes the first momentum that is neither zero nor real and in the negative z direction *)
Theorem C89_loop : forall (K : Fld) (X : Cx K) rm ts v, mpc_loop X rm ts = Some v <->
  exists pre t post, ts = pre ++ t :: post /\ v = turn_momentum X rm t /\
    Forall (fun u => let '(x, y, z) := turn_momentum X rm u in x = f0 /\ y = f0 /\ im X z = f0 /\ (z = f0 \/ positive X (- z)%fld)) pre /\
    ~ (let '(x, y, z) := v in x = f0 /\ y = f0 /\ im X z = f0 /\ (z = f0 \/ positive X (- z)%fld)).
Proof. intros K X. exact (loop_first X). Qed.
Print Assumptions C89_loop.
(* C89: real momenta have positive energy and spinors that reproduce them *)
Theorem C89_real : forall (K : Fld) (X : Cx K) cv ts p x y z e, Forall turn_ok ts -> mpc_loop X true ts = Some (x, y, z) -> fsqrt (x * x + y * y + z * z)%fld = Some e ->
  outgoing X (V4 e x y z) /\ positive X (e + z)%fld /\
  ((cv = Symmetric -> fsqrt (e + z)%fld <> None) -> exists q, randomise_mpc X cv true ts p = Some (q, Ok tt) /\ reproduces q /\ r2 q = slash_up (ci X) (V4 e x y z)).
Proof. intros K X. exact (real_momentum X). Qed.
Print Assumptions C89_real.
(* C89: complex momenta have them unless px^2 + py^2 = 0 and the root of pz^2 is -pz *)
Theorem C89_complex : forall (K : Fld) (X : Cx K) cv rm ts p x y z e, mpc_loop X rm ts = Some (x, y, z) -> fsqrt (x * x + y * y + z * z)%fld = Some e ->
  mink (V4 e x y z) (V4 e x y z) = f0 /\
  (~ ((x * x + y * y)%fld = f0 /\ backward X z) -> (cv = Symmetric -> fsqrt (e + z)%fld <> None) ->
     exists q, randomise_mpc X cv rm ts p = Some (q, Ok tt) /\ reproduces q /\ r2 q = slash_up (ci X) (V4 e x y z)) /\
  ((x * x + y * y)%fld = f0 /\ backward X z ->
     match cv with
     | Symmetric => exists q, randomise_mpc X cv rm ts p = Some (q, Ok tt) /\ r_d q = None /\ r_u q = None /\ l_d q = None /\ l_u q = None
     | Asymmetric => exists q, randomise_mpc X cv rm ts p = Some (q, Err ZeroDivisionError)
     end).
Proof. intros K X. exact (complex_momentum X). Qed.
Print Assumptions C89_complex.
Definition fr (n : Z) : Z * Z := (n, 1%Z).
Definition rturn (x y z : Z) : turn := mkTurn (fr x) (fr 0) (fr y) (fr 0) (fr z) (fr 0).
Definition has_spinors (o : option (particle GQ * result unit)) : bool :=
  match o with Some (q, Ok _) => match r_d q with Some _ => true | None => false end | _ => true end.
Lemma no_spinors o : has_spinors o = false -> exists q, o = Some (q, Ok tt) /\ r_d q = None.
Proof. destruct o as [[q [[]|]]|]; try discriminate. cbn. destruct (r_d q) eqn:E; [discriminate|]. eauto. Qed.
Ltac drawn_ok := repeat (split || constructor); vm_compute; discriminate.
(* C89 does not hold for complex momenta: the test that should exclude the negative z direction
   (particle.py:317) lets complex ones pass, with pz imaginary, or with px = i py, and then the leg has
   no spinors *)
Theorem C89_complex_refuted : exists t1 t2, turn_ok t1 /\ turn_ok t2 /\
  accepted GQX (turn_momentum GQX false t1) = true /\ accepted GQX (turn_momentum GQX false t2) = true /\
  (exists q, randomise_mpc GQX Symmetric false [t1] blank = Some (q, Ok tt) /\ r_d q = None) /\
  (exists q, randomise_mpc GQX Symmetric false [t2] blank = Some (q, Ok tt) /\ r_d q = None).
Proof.
  exists (mkTurn (fr 0) (fr 0) (fr 0) (fr 0) (fr 0) (fr (-1))), (mkTurn (fr 1) (fr 0) (fr 0) (fr 1) (fr (-1)) (fr 0)).
  split; [drawn_ok|]. split; [drawn_ok|]. split; [vm_compute; reflexivity|]. split; [vm_compute; reflexivity|].
  split; apply no_spinors; vm_compute; reflexivity.
Qed.
Print Assumptions C89_complex_refuted.
(* first 0 0 -3, which is drawn again, and then 2 2 1 with energy 3 *)
Example C89_ex : Forall turn_ok [rturn 0 0 (-3); rturn 2 2 1] /\ mpc_loop GQX true [rturn 0 0 (-3)] = None /\
  exists x y z e, mpc_loop GQX true [rturn 0 0 (-3); rturn 2 2 1] = Some (x, y, z) /\ fsqrt (x * x + y * y + z * z)%fld = Some e /\ fsqrt (e + z)%fld <> None /\ e = gq 3 0 /\ z = gq 1 0.
Proof.
  split; [drawn_ok|]. split; [vm_compute; reflexivity|]. exists (rand_frac (fr 2)), (rand_frac (fr 2)), (rand_frac (fr 1)), (gq 3 0).
  split; [reflexivity|]. split; [fsomeq|]. split; [|split; [reflexivity|fcomp]]. intros H. apply (f_equal is_some) in H. vm_compute in H. discriminate.
Qed.

(* C90: real points conserve momentum, with real light-like momenta, two legs incoming and the others
   outgoing; one of the two can have zero momentum *)
Theorem C90_real : forall (K : Fld) (X : Cx K) cv tss ref sample s, Forall (Forall turn_ok) tss -> sample_ok (length tss) sample -> (3 <= length tss)%nat ->
  new_mpc X cv true tss ref sample true = Some (s, Ok tt) ->
  exists A B, sample = Some (A, B) /\ length s = length tss /\ total_mom s = mzero /\
    forall k p, getitem s k = Ok p -> consistent p /\ lsq p = f0 /\ exists v, fm p = Some v /\ real_light X v /\
      (k <> A -> k <> B -> outgoing X v) /\ (k = A -> v = V4 (c0 v) (c0 v) f0 f0 /\ (c0 v = f0 \/ incoming X v)) /\ (k = B -> incoming X v).
Proof. intros K X. exact (new_real X). Qed.
Print Assumptions C90_real.
(* C90: the only error is a division by zero, when all the other legs are along the x axis *)
Theorem C90_error : forall (K : Fld) (X : Cx K) tss ref A B s0 r, Forall (Forall turn_ok) tss -> sample_ok (length tss) (Some (A, B)) -> (3 <= length tss)%nat ->
  mpc_legs X Symmetric true tss = Some (Ok s0) -> mpc_leg X Symmetric true ref = Some (Ok r) ->
  exists s res, new_mpc X Symmetric true tss ref (Some (A, B)) true = Some (s, res) /\ (res = Ok tt \/ res = Err ZeroDivisionError) /\
    (res = Err ZeroDivisionError <-> forall k p v, k <> A -> k <> B -> getitem s0 k = Ok p -> fm p = Some v -> v = V4 (c0 v) (c0 v) f0 f0).
Proof. intros K X. exact (new_real_error X). Qed.
Print Assumptions C90_error.
(* C90: complex points are physical if every leg has spinors *)
Theorem C90_complex : forall (K : Fld) (X : Cx K) tss ref sample s, sample_ok (length tss) sample ->
  (forall ts x y z e, In ts tss -> mpc_loop X false ts = Some (x, y, z) -> fsqrt (x * x + y * y + z * z)%fld = Some e -> (e + z)%fld <> f0 /\ fsqrt (e + z)%fld <> None) ->
  new_mpc X Symmetric false tss ref sample true = Some (s, Ok tt) -> length s = length tss /\ physical s.
Proof. intros K X. exact (new_complex X). Qed.
Print Assumptions C90_complex.
(* C90 does not hold for three real legs: one of them always has zero momentum and no spinors *)
Theorem C90_three : forall (K : Fld) (X : Cx K) tss ref A B s, Forall (Forall turn_ok) tss -> sample_ok (length tss) (Some (A, B)) -> length tss = 3%nat ->
  new_mpc X Symmetric true tss ref (Some (A, B)) true = Some (s, Ok tt) ->
  exists p, getitem s A = Ok p /\ r2 p = mzero /\ fm p = Some (V4 f0 f0 f0 f0) /\ r_d p = None /\ r_u p = None /\ l_d p = None /\ l_u p = None.
Proof. intros K X. exact (new_real_three X). Qed.
Print Assumptions C90_three.
(* C90 does not hold for two real legs: it is always an error *)
Theorem C90_two : forall (K : Fld) (X : Cx K) cv tss ref A B x, Forall (Forall turn_ok) tss -> sample_ok (length tss) (Some (A, B)) -> length tss = 2%nat ->
  new_mpc X cv true tss ref (Some (A, B)) true = Some x ->
  exists e, snd x = Err e /\ (mpc_legs X cv true tss <> Some (Err e) -> mpc_leg X cv true ref <> Some (Err e) -> e = TypeError).
Proof. intros K X. exact (new_real_two X). Qed.
Print Assumptions C90_two.
Definition went_well (o : option (ps GQ * result unit)) : bool := match o with Some (_, Ok _) => true | _ => false end.
Lemma went_well_ok o : went_well o = true -> exists s, o = Some (s, Ok tt).
Proof. destruct o as [[s [[]|]]|]; try discriminate. eauto. Qed.
Definition good_leg (ts : list turn) : bool :=
  match mpc_loop GQX false ts with
  | Some (x, y, z) => match fsqrt (x * x + y * y + z * z)%fld with Some e => negb (feqb (e + z)%fld f0) && is_some (fsqrt (e + z)%fld) | None => true end
  | None => true
  end.
Lemma good_legs tss : forallb good_leg tss = true ->
  forall ts x y z e, In ts tss -> mpc_loop GQX false ts = Some (x, y, z) -> fsqrt (x * x + y * y + z * z)%fld = Some e -> (e + z)%fld <> f0 /\ fsqrt (e + z)%fld <> None.
Proof.
  rewrite forallb_forall. intros H ts x y z e Hin L S. specialize (H ts Hin). unfold good_leg in H. rewrite L, S in H. apply andb_true_iff in H as [H1 H2].
  apply negb_true_iff in H1. split; [apply feqb_neq; exact H1|]. intros E. rewrite E in H2. discriminate.
Qed.
Definition legs4 : list (list turn) := [[rturn 2 2 1]; [rturn 0 0 (-3); rturn 1 2 2]; [rturn 2 1 2]; [rturn 6 2 3]].
Definition legs_c : list (list turn) := [[mkTurn (fr 2) (fr 0) (fr 0) (fr 1) (fr (-1)) (fr 0)]; [rturn 1 0 0]; [rturn 1 2 (-2)]; [rturn 2 2 1]].
Example C90_ex : Forall (Forall turn_ok) legs4 /\ sample_ok (length legs4) (Some (3, 1)%Z) /\
  (exists s, new_mpc GQX Symmetric true legs4 [rturn 2 2 1] (Some (3, 1)%Z) true = Some (s, Ok tt)) /\
  (exists s, new_mpc GQX Symmetric true (firstn 3 legs4) [rturn 2 2 1] (Some (3, 1)%Z) true = Some (s, Ok tt)) /\
  (forall ts x y z e, In ts legs_c -> mpc_loop GQX false ts = Some (x, y, z) -> fsqrt (x * x + y * y + z * z)%fld = Some e -> (e + z)%fld <> f0 /\ fsqrt (e + z)%fld <> None) /\
  (exists s, new_mpc GQX Symmetric false legs_c [rturn 1 0 0] (Some (3, 1)%Z) true = Some (s, Ok tt)).
Proof.
  split; [drawn_ok|]. split; [cbn; lia|]. split; [apply went_well_ok; vm_compute; reflexivity|]. split; [apply went_well_ok; vm_compute; reflexivity|].
  split; [apply good_legs; vm_compute; reflexivity|apply went_well_ok; vm_compute; reflexivity].
Qed.
(* C90: with the other two legs along the x axis the constructor divides by zero *)
Example C90_error_ex : Forall (Forall turn_ok) [[rturn 1 0 0]; [rturn 2 2 1]; [rturn 4 0 0]; [rturn 2 1 2]] /\
  snd (match new_mpc GQX Symmetric true [[rturn 1 0 0]; [rturn 2 2 1]; [rturn 4 0 0]; [rturn 2 1 2]] [rturn 2 2 1] (Some (4, 2)%Z) true with Some x => x | None => ([], Ok tt) end) = Err ZeroDivisionError.
Proof. split; [drawn_ok|]. ferr. Qed.
(* C90: three real legs without spinors for one of them, and two real legs (particles.py:288-291) *)
Theorem C90_spinors_refuted : exists tss ref A B s p, Forall (Forall turn_ok) tss /\ sample_ok (length tss) (Some (A, B)) /\
  new_mpc GQX Symmetric true tss ref (Some (A, B)) true = Some (s, Ok tt) /\ getitem s A = Ok p /\ r2 p = mzero /\ r_d p = None.
Proof.
  destruct C90_ex as (F & _ & _ & (s & E) & _). exists (firstn 3 legs4), [rturn 2 2 1], 3%Z, 1%Z, s.
  assert (F3 : Forall (Forall turn_ok) (firstn 3 legs4)) by drawn_ok. assert (S3 : sample_ok (length (firstn 3 legs4)) (Some (3, 1)%Z)) by (cbn; lia).
  destruct (C90_three GQ GQX _ _ _ _ s F3 S3 eq_refl E) as (p & G & R & _ & N & _). exists p. auto 10.
Qed.
Print Assumptions C90_spinors_refuted.
Theorem C90_two_refuted : exists tss ref A B, Forall (Forall turn_ok) tss /\ sample_ok (length tss) (Some (A, B)) /\
  exists s, new_mpc GQX Symmetric true tss ref (Some (A, B)) true = Some (s, Err TypeError).
Proof.
  exists (firstn 2 legs4), [rturn 2 2 1], 1%Z, 2%Z. split; [drawn_ok|]. split; [cbn; lia|].
  destruct (new_mpc GQX Symmetric true (firstn 2 legs4) [rturn 2 2 1] (Some (1, 2)%Z) true) as [[s r]|] eqn:E.
  - exists s. assert (H : r = snd (match new_mpc GQX Symmetric true (firstn 2 legs4) [rturn 2 2 1] (Some (1, 2)%Z) true with Some x => x | None => ([], Ok tt) end)) by (rewrite E; reflexivity).
    assert (H2 : r = Err TypeError) by (rewrite H; ferr). rewrite H2. reflexivity.
  - exfalso. apply (f_equal is_some) in E. vm_compute in E. discriminate.
Qed.
Print Assumptions C90_two_refuted.
