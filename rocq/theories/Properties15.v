(* C52: points that share nothing. *)
From Coq Require Import List ZArith Bool Lia.
From Verif Require Import Base Fld FldInst Particle Index Phase Compute Cluster Symm Str Heap HeapSpec HeapThm.
Import ListNotations.
Open Scope nat_scope.

(* C52: take any heap, any variables e of a first client in it, and let a second client have
   the image t of any point s.  Whatever the two have done, nothing that the first one can
   see changes by what the second one does next, and the other way round: every command on
   arrays, particles and points, also those that raise, in any order. *)
Theorem C52_image : forall (K : Fld) cv (h : heap K) s rule t h1 e,
  no_dangling h -> h_image rule s h = (h1, Ok t) -> Forall (fun l => l < length h) e ->
  forall (p : list (bool * cmd K)) (c : cmd K) (n : nat), let st := turns cv (mkC h1 e [t]) p in
  (forall l, In l (one st) -> look n (mem (turn cv st (false, c))) l = look n (mem st) l) /\
  (forall l, In l (two st) -> look n (mem (turn cv st (true, c))) l = look n (mem st) l).
Proof. intros K. exact image_independent. Qed.
Print Assumptions C52_image.
(* and so for copies *)
Theorem C52_copy : forall (K : Fld) cv (h : heap K) s t h1 e,
  no_dangling h -> h_copy s h = (h1, Ok t) -> Forall (fun l => l < length h) e ->
  forall (p : list (bool * cmd K)) (c : cmd K) (n : nat), let st := turns cv (mkC h1 e [t]) p in
  (forall l, In l (one st) -> look n (mem (turn cv st (false, c))) l = look n (mem st) l) /\
  (forall l, In l (two st) -> look n (mem (turn cv st (true, c))) l = look n (mem st) l).
Proof.
  intros K cv h s t h1 e N E He. destruct (copy_image s h _ E) as (rule & [E'|E']); [exact (image_independent cv h s rule t h1 e N E' He)|destruct (E' t h1 eq_refl)].
Qed.
Print Assumptions C52_copy.
(* To make an image changes nothing that there was. *)
Theorem C52_unchanged : forall (K : Fld) (h : heap K) s rule t h1, no_dangling h -> h_image rule s h = (h1, Ok t) ->
  length h <= t /\ forall n l, l < length h -> look n h1 l = look n h l.
Proof.
  intros K h s rule t h1 N E. destruct (image_new rule s h h1 t N E) as (Sm & Sp). split.
  - destruct (Nat.lt_ge_cases t (length h)) as [L|L]; [|exact L]. exfalso. destruct (Sp [t]) as (A & B & _ & _ & EA & _ & _ & EB & D); [constructor; [exact L|constructor]|]. cbn in EA, EB. inversion EA; inversion EB; subst. eapply D; eassumption.
  - apply (look_same h h1 (fun l => l < length h)); [intros l o l' _ En I; exact (N _ _ _ En I)|exact Sm].
Qed.
Print Assumptions C52_unchanged.

(* Four particles and a point, made by the first client, variables 2, 5, 8, 11 and 12. *)
Definition make (r1 r2 l1 l2 : Z) (k : nat) : list (cmd GF13) :=
  [NewArr [2; 1] [g13 r1; g13 r2]; NewArr [1; 2] [g13 l1; g13 l2]; NewPart k (k + 1)].
Definition prog15 : list (bool * cmd GF13) :=
  map (pair true) (make 1 2 3 4 0 ++ make 5 1 3 7 3 ++ make 4 4 1 6 6 ++ make 2 9 8 1 9 ++ [NewPoint [2; 5; 8; 11]]).
Definition st15 : clients GF13 := turns Asymmetric (mkC [] [] []) prog15.
Definition s15 : loc := nth 12 (one st15) 0.
(* a leg of a point, as a value *)
Definition leg_value {K : Fld} (h : heap K) (s : loc) (i : Z) : result (particle K) :=
  snd (bind (load_point s) (fun S => bind (lift (getitem (legs S) i)) read_part) h).
Definition danglingb {K : Fld} (h : heap K) : bool := forallb (fun o => forallb (fun l => Nat.ltb l (length h)) (refs o)) h.
Lemma danglingb_ok {K : Fld} (h : heap K) : danglingb h = true -> no_dangling h.
Proof.
  intros D l o l' E I. unfold danglingb in D. rewrite forallb_forall in D. specialize (D o (nth_error_In _ _ E)). rewrite forallb_forall in D. apply Nat.ltb_lt, D, I.
Qed.
Definition rd_is (v : v2 GF13) (r : result (particle GF13)) : bool :=
  match r with Ok p => match r_d p with Some u => feqb (e0 u) (e0 v) && feqb (e1 u) (e1 v) | None => false end | Err _ => false end.
Definition run_ok {A} (r : heap GF13 * result A) : bool := match snd r with Ok _ => true | Err _ => false end.
Definition val_of (d : nat) (r : heap GF13 * result loc) : nat := match snd r with Ok t => t | Err _ => d end.
Lemma run_split (d : nat) (r : heap GF13 * result loc) : run_ok r = true -> r = (fst r, Ok (val_of d r)).
Proof. destruct r as [h [t|e]]; [reflexivity|discriminate]. Qed.
(* an image of it, with conjugation; the second client turns its leg 2 around, changes one
   number of it in place and removes its leg 1; leg 3 of the original became leg 2 *)
Definition img15 := h_image (K := GF13) ([3; 1; 2; 4]%Z, true) s15 (mem st15).
Definition prog15b : list (bool * cmd GF13) :=
  map (pair false) [GetLeg 0 2; GetAttr 1 LD; Write 2 0 (g13 11); Flip 1; DelLeg 0 1].
Definition st15b : clients GF13 := turns Asymmetric (mkC (fst img15) (one st15) [val_of 0 img15]) prog15b.
Example C52_ex : no_dangling (mem st15) /\ Forall (fun l => l < length (mem st15)) (one st15) /\
  img15 = (fst img15, Ok (val_of 0 img15)) /\
  rd_is (V2 (g13 4) (g13 4)) (leg_value (mem st15) s15 3) = true /\            (* before *)
  rd_is (V2 (g13 1) (g13 6)) (leg_value (fst img15) (val_of 0 img15) 2) = true /\  (* the image *)
  rd_is (V2 (g13 11) (g13 4)) (leg_value (mem st15b) (val_of 0 img15) 1) = true /\  (* the image, changed *)
  rd_is (V2 (g13 4) (g13 4)) (leg_value (mem st15b) s15 3) = true.             (* the original then *)
Proof.
  split; [apply danglingb_ok; vm_compute; reflexivity|]. split; [apply Forall_forall; intros l I; apply Nat.ltb_lt; revert l I; apply forallb_forall; vm_compute; reflexivity|].
  split; [apply run_split; vm_compute; reflexivity|]. repeat match goal with |- _ /\ _ => split; [vm_compute; reflexivity|] end. vm_compute. reflexivity.
Qed.

(* Not so for the point that cluster returns: a corner of one leg is copy(particle), with the
   same arrays.  Here legs 1 and 2 make a massive fermion; the clustered point is clustered
   again, with one leg in each corner; angles_for_squares of the second one changes a spinor
   of the first one. *)
Definition cl1 := h_cluster (K := GF13) Asymmetric [[1; 2]; [3]; [4]]%Z [(1, Up, 1)]%Z s15 (mem st15).
Lemma neq_rd (r r' : result (particle GF13)) v w : rd_is v r = true -> rd_is w r' = true -> feqb (e0 v) (e0 w) = false -> r <> r'.
Proof.
  unfold rd_is. intros E E' N X. subst r'. destruct r as [p|]; [|discriminate E]. destruct (r_d p) as [u|]; [|discriminate E]. apply andb_prop in E, E'. destruct E as [E _], E' as [E' _]. apply feqb_ok in E, E'. rewrite <- E, E' in N. rewrite feqb_refl in N. discriminate N.
Qed.
Lemma cluster_witness (h : heap GF13) s corners c v w : danglingb h = true ->
  let r := h_cluster Asymmetric corners [] s h in run_ok r = true ->
  rd_is v (leg_value (mem (turn Asymmetric (mkC (fst r) [s] [val_of 0 r]) (false, c))) s 1) = true -> rd_is w (leg_value (fst r) s 1) = true -> feqb (e0 v) (e0 w) = false ->
  exists (h h1 : heap GF13) (s t : loc) (corners : list (list Z)) (c : cmd GF13),
  no_dangling h /\ h_cluster Asymmetric corners [] s h = (h1, Ok t) /\
  leg_value (mem (turn Asymmetric (mkC h1 [s] [t]) (false, c))) s 1 <> leg_value h1 s 1.
Proof.
  intros D r R E1 E2 N. exists h, (fst r), s, (val_of 0 r), corners, c. split; [apply danglingb_ok, D|]. split; [apply run_split, R|exact (neq_rd _ _ v w E1 E2 N)].
Qed.
Theorem C52_cluster_refuted : exists (h h1 : heap GF13) (s t : loc) (corners : list (list Z)) (c : cmd GF13),
  no_dangling h /\ h_cluster Asymmetric corners [] s h = (h1, Ok t) /\
  leg_value (mem (turn Asymmetric (mkC h1 [s] [t]) (false, c))) s 1 <> leg_value h1 s 1.
Proof.
  apply (cluster_witness (fst cl1) (val_of 0 cl1) [[1]; [2]; [3]]%Z (FlipAll 0) (V2 (g13 12) (g13 11)) (V2 (g13 1) (g13 2))); vm_compute; reflexivity.
Qed.
Print Assumptions C52_cluster_refuted.
(* Nor for slices, whose entries are the particles themselves. *)
Lemma slice_witness (h : heap GF13) s i j c v w : danglingb h = true ->
  let r := h_slice s i j h in run_ok r = true ->
  rd_is v (leg_value (mem (turn Asymmetric (mkC (fst r) [s] [val_of 0 r]) (false, c))) s 1) = true -> rd_is w (leg_value (fst r) s 1) = true -> feqb (e0 v) (e0 w) = false ->
  exists (h h1 : heap GF13) (s t : loc) (i j : nat) (c : cmd GF13),
  no_dangling h /\ h_slice s i j h = (h1, Ok t) /\
  leg_value (mem (turn Asymmetric (mkC h1 [s] [t]) (false, c))) s 1 <> leg_value h1 s 1.
Proof.
  intros D r R E1 E2 N. exists h, (fst r), s, (val_of 0 r), i, j, c. split; [apply danglingb_ok, D|]. split; [apply run_split, R|exact (neq_rd _ _ v w E1 E2 N)].
Qed.
Theorem C52_slice_refuted : exists (h h1 : heap GF13) (s t : loc) (i j : nat) (c : cmd GF13),
  no_dangling h /\ h_slice s i j h = (h1, Ok t) /\
  leg_value (mem (turn Asymmetric (mkC h1 [s] [t]) (false, c))) s 1 <> leg_value h1 s 1.
Proof.
  apply (slice_witness (mem st15) s15 0 2 (FlipAll 0) (V2 (g13 3) (g13 4)) (V2 (g13 1) (g13 2))); vm_compute; reflexivity.
Qed.
Print Assumptions C52_slice_refuted.
