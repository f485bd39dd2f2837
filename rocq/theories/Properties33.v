(* C92: invariants and brackets of real points; more of C89 and C50. *)
From Coq Require Import List ZArith Bool Lia.
From Verif Require Import Base Fld FldInst Particle ParticleSpec Index Phase PhaseSpec Compute SetOne SetSpec SetThm SetPair SetPairSpec SetPairThm Variety VarietyThm Polar PolarThm MpcRandom MpcRandomSpec MpcRandomThm MpcPoint MpcPointThm MpcInst MpcSignSpec MpcSignThm Properties08 Properties31.
Import ListNotations.

(* C92: the invariant of legs that are all outgoing, or all incoming, is not negative *)
Theorem C92_outgoing : forall (K : Fld) (X : Cx K) (s : ps K) l, l <> [] ->
  (forall k, In k l -> exists p v, getitem s k = Ok p /\ consistent p /\ fm p = Some v /\ outgoing X v) -> exists x, c_S s l = Ok x /\ not_negative X x.
Proof. intros K X. exact (mand_outgoing X). Qed.
Print Assumptions C92_outgoing.
Theorem C92_incoming : forall (K : Fld) (X : Cx K) (s : ps K) l, l <> [] ->
  (forall k, In k l -> exists p v, getitem s k = Ok p /\ consistent p /\ fm p = Some v /\ incoming X v) -> exists x, c_S s l = Ok x /\ not_negative X x.
Proof. intros K X. exact (mand_incoming X). Qed.
Print Assumptions C92_incoming.
(* C92: the invariant of one outgoing and one incoming leg is not positive *)
Theorem C92_mixed : forall (K : Fld) (X : Cx K) (s : ps K) a b pa pb va vb,
  getitem s a = Ok pa -> getitem s b = Ok pb -> consistent pa -> consistent pb -> fm pa = Some va -> fm pb = Some vb ->
  outgoing X va -> incoming X vb -> exists x, c_S s [a; b] = Ok x /\ not_negative X (- x)%fld.
Proof. intros K X. exact (mand_mixed X). Qed.
Print Assumptions C92_mixed.
(* C92: at a real point [ba] is the conjugate of <ab> with the factors of the two legs, which are the
   signs of the energies for the symmetric choice of spinors *)
Theorem C92_brackets : forall (K : Fld) (X : Cx K) cv tss ref sample s a b pa pb va vb x,
  Forall (Forall turn_ok) tss -> sample_ok (length tss) sample -> (3 <= length tss)%nat -> new_mpc X cv true tss ref sample true = Some (s, Ok tt) ->
  getitem s a = Ok pa -> getitem s b = Ok pb -> fm pa = Some va -> fm pb = Some vb -> c_A2 s a b = Ok x ->
  exists la lb, factor X cv va la /\ factor X cv vb lb /\ c_S2 s b a = Ok (la * lb * conj X x)%fld.
Proof. intros K X. exact (point_brackets X). Qed.
Print Assumptions C92_brackets.

(* two outgoing legs 1 and 2, and two incoming ones 3 and 4 *)
Definition legs_r : list (list turn) := [[rturn (-25) (-20) (-8)]; [rturn (-3) (-2) (-6)]; [rturn 2 2 1]; [rturn 1 2 (-2)]].
Definition point_r (cv : convention) : ps GQ := match new_mpc GQX cv true legs_r [rturn 2 2 1] (Some (3, 4)%Z) true with Some (s, _) => s | None => [] end.
Lemma point_r_is cv : new_mpc GQX cv true legs_r [rturn 2 2 1] (Some (3, 4)%Z) true = Some (point_r cv, Ok tt).
Proof.
  unfold point_r. destruct (went_well_ok (new_mpc GQX cv true legs_r [rturn 2 2 1] (Some (3, 4)%Z) true)) as [s E]; [destruct cv; vm_compute; reflexivity|]. rewrite E. reflexivity.
Qed.
Lemma legs_r_ok : Forall (Forall turn_ok) legs_r /\ sample_ok (length legs_r) (Some (3, 4)%Z) /\ (3 <= length legs_r)%nat.
Proof. split; [drawn_ok|]. cbn. lia. Qed.
Lemma leg_of (s : ps GQ) k : is_some (match getitem s k with Ok p => Some p | Err _ => None end) = true -> exists p, getitem s k = Ok p.
Proof. destruct (getitem s k); [eauto|discriminate]. Qed.
Lemma point_r_legs cv k : (1 <= k <= 4)%Z -> exists p v, getitem (point_r cv) k = Ok p /\ consistent p /\ fm p = Some v /\ ((k < 3)%Z -> outgoing GQX v) /\ (k = 4%Z -> incoming GQX v).
Proof.
  intros Hk. destruct legs_r_ok as (F & S & L). destruct (C90_real GQ GQX cv _ _ _ _ F S L (point_r_is cv)) as (A & B & E & _ & _ & H). injection E as <- <-.
  destruct (leg_of (point_r cv) k) as [p G].
  { assert (C : (k = 1 \/ k = 2 \/ k = 3 \/ k = 4)%Z) by lia. destruct cv; destruct C as [->|[->|[->| ->]]]; vm_compute; reflexivity. }
  destruct (H k p G) as (C & _ & v & Fv & _ & O & _ & I). exists p, v. split; [exact G|]. split; [exact C|]. split; [exact Fv|]. split; [intros; apply O; lia|exact I].
Qed.
Example C92_invariants_ex :
  (forall k, In k [1; 2]%Z -> exists p v, getitem (point_r Symmetric) k = Ok p /\ consistent p /\ fm p = Some v /\ outgoing GQX v) /\
  (exists pa pb va vb, getitem (point_r Symmetric) 1 = Ok pa /\ getitem (point_r Symmetric) 4 = Ok pb /\ consistent pa /\ consistent pb /\ fm pa = Some va /\ fm pb = Some vb /\ outgoing GQX va /\ incoming GQX vb) /\
  c_S (point_r Symmetric) [1; 2]%Z = Ok (gq 136 0) /\ c_S (point_r Symmetric) [3; 4]%Z = Ok (gq 136 0) /\ c_S (point_r Symmetric) [1; 4]%Z = Ok (gq (-20) 0).
Proof.
  split; [intros k [<-|[<-|[]]]; [destruct (point_r_legs Symmetric 1)|destruct (point_r_legs Symmetric 2)]; try lia; destruct H as (v & G & C & F & O & _); exists x, v; refine (Logic.conj G (Logic.conj C (Logic.conj F (O _)))); lia|].
  split; [|repeat split; fokeq].
  destruct (point_r_legs Symmetric 1) as (pa & va & Ga & Ca & Fa & Oa & _); [lia|]. destruct (point_r_legs Symmetric 4) as (pb & vb & Gb & Cb & Fb & _ & Ib); [lia|].
  exists pa, pb, va, vb. refine (Logic.conj Ga (Logic.conj Gb (Logic.conj Ca (Logic.conj Cb (Logic.conj Fa (Logic.conj Fb (Logic.conj (Oa _) (Ib _)))))))); [lia|reflexivity].
Qed.
Example C92_brackets_ex : Forall (Forall turn_ok) legs_r /\ sample_ok (length legs_r) (Some (3, 4)%Z) /\ (3 <= length legs_r)%nat /\
  new_mpc GQX Symmetric true legs_r [rturn 2 2 1] (Some (3, 4)%Z) true = Some (point_r Symmetric, Ok tt) /\
  c_A2 (point_r Symmetric) 1 4 = Ok (gq (-2) 4) /\ c_S2 (point_r Symmetric) 4 1 = Ok (gq 2 4).
Proof. destruct legs_r_ok as (F & S & L). split; [exact F|]. split; [exact S|]. split; [exact L|]. split; [apply point_r_is|]. split; fokeq. Qed.
(* with the asymmetric choice the square bracket is not the conjugate up to a sign (particle.py:370,388) *)
Theorem C92_asymmetric_refuted : exists tss ref sample s a b x y, Forall (Forall turn_ok) tss /\ sample_ok (length tss) sample /\ (3 <= length tss)%nat /\
  new_mpc GQX Asymmetric true tss ref sample true = Some (s, Ok tt) /\ c_A2 s a b = Ok x /\ c_S2 s b a = Ok y /\ y <> conj GQX x /\ y <> (- conj GQX x)%fld.
Proof.
  destruct legs_r_ok as (F & S & L). exists legs_r, [rturn 2 2 1], (Some (3, 4)%Z), (point_r Asymmetric), 1%Z, 2%Z, (get_ok 0%fld (c_A2 (point_r Asymmetric) 1 2)), (get_ok 0%fld (c_S2 (point_r Asymmetric) 2 1)).
  split; [exact F|]. split; [exact S|]. split; [exact L|]. split; [apply point_r_is|]. split; [fok|]. split; [fok|]. split; fneq.
Qed.
Print Assumptions C92_asymmetric_refuted.

(* C89: the parts of the components are the numbers drawn *)
Theorem C89_components : forall (K : Fld) (X : Cx K) t, turn_ok t ->
  turn_momentum X true t = (@rand_frac K (x_re t), @rand_frac K (y_re t), @rand_frac K (z_re t)) /\
  exists x y z, turn_momentum X false t = (x, y, z) /\ re X x = rand_frac (x_re t) /\ im X x = rand_frac (x_im t) /\
    re X y = rand_frac (y_re t) /\ im X y = rand_frac (y_im t) /\ re X z = rand_frac (z_re t) /\ im X z = rand_frac (z_im t).
Proof.
  intros K X t H. split; [reflexivity|]. pose proof (complex_turn X t H) as C. destruct (turn_momentum X false t) as [[x y] z]. exists x, y, z. tauto.
Qed.
Print Assumptions C89_components.
Example C89_components_ex : turn_ok (mkTurn (3, 2) (5, 7) (-4, 9) (100, 200) (0, 1) (-1, 3))%Z.
Proof. drawn_ok. Qed.

(* C50: label k has the k-th helicity, the labels 0, -1, ... those from the end, and any other raises *)
Theorem C50_labels : forall (A : Type) (helconf : list A) (k : Z),
  (forall h n, k = Z.of_nat (S n) -> nth_error helconf n = Some h -> py_get helconf (k - 1) = Ok h /\ py_get helconf (k - zlen helconf - 1) = Ok h) /\
  ((k > zlen helconf \/ k < 1 - zlen helconf)%Z -> py_get helconf (k - 1) = Err IndexError).
Proof. intros A. exact (@py_get_labels A). Qed.
Print Assumptions C50_labels.
Example C50_labels_ex : py_get [43; 109; 45]%Z (3 - 1) = Ok 45%Z /\ py_get [43; 109; 45]%Z (0 - 1) = Ok 45%Z /\ py_get [43; 109; 45]%Z (4 - 1) = Err IndexError.
Proof. repeat split. Qed.

(* C54: variety reaches two values of two brackets, each at its own bracket, without the fallback *)
Theorem C54_variety : forall (K : Fld) (cv : convention) (so : list Z -> list Z) (other : target -> K -> target -> K -> QM (K := K) pair_ret) (fuel : nat)
    (singular : list target -> list K -> QM (K := K) unit) (char0 try_s : bool) (an1 : bool) (a b : Z) (v1 : K) (an2 : bool) (c d : Z) (v2 : K) (s : ps K) (p q : Z) (rest : list Z),
  set_like so -> Forall (fun x => fresh x) s -> legs_of s [a; b; c; d] -> a <> b -> c <> d -> ~ same_bracket an1 a b an2 c d ->
  free_legs (length s) [a; b; c; d] = p :: q :: rest ->
  let x1 := lead (Bool.eqb an1 an2) a b c d in let x2 := lead (Bool.eqb an1 an2) c d a b in
  first_of an1 s x1 <> Some f0 -> first_of an2 s x2 <> Some f0 -> nz (c_S2 s p q) -> (char0 = true \/ (v1 = f0 /\ v2 = f0)) ->
  exists s', variety (hardcoded (fun t v => set_ cv so t v true 1) (set_pair cv so other (S fuel))) singular (fun s t => c_target s t) char0 try_s
               [two an1 a b; two an2 c d] [v1; v2] s = (s', Ok tt) /\
    made2 s s' (two an1 a b) v1 (two an2 c d) v2 [a + b - x1; c + d - x2; p; q]%Z.
Proof.
  intros K cv so other fuel singular char0 try_s an1 a b v1 an2 c d v2 s p q rest SO F L N1 N2 NS FL x1 x2 H1 H2 NZ V.
  destruct (C54_two_free K cv so other fuel an1 a b v1 an2 c d v2 s p q rest SO F L N1 N2 NS FL) as [G _].
  destruct (G H1 H2 NZ) as (s' & E & M & _ & _). exists s'. split; [|exact M]. apply (proj2 (proj2 (variety_hard _ _ _ _ _ [two an1 a b; two an2 c d] [v1; v2] s s' eq_refl E))).
  destruct M as [M1 M2 M3 M4 _ _]. split; [split; [exact M3|]|].
  - eapply Forall_impl; [|exact M4]. intros x (_ & _ & Fx). exact Fx.
  - unfold good_values. destruct char0; [constructor; [left; assumption|constructor; [left; assumption|constructor]]|]. destruct V as [V|[-> ->]]; [discriminate|]. repeat constructor; assumption.
Qed.
Print Assumptions C54_variety.
Example C54_variety_ex : variety6 true [two true 1 2; two true 2 3] [5; 7]%Z = Ok tt /\ variety6 true [two true 1 2; two false 1 2] [5; 7]%Z = Ok tt /\
  variety6 false [two true 1 2; two true 2 3] [0; 0]%Z = Ok tt.
Proof. split; [vm_compute; reflexivity|]. split; vm_compute; reflexivity. Qed.
