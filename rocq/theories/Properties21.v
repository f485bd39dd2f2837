(* C73-C76: ideals, their images, members, rings and invariants. *)
From Coq Require Import Ascii String.
From Coq Require Import List ZArith Bool Lia Permutation Factorial Field.
From Verif Require Import Base Fld FldInst Particle ParticleSpec ParticleThm Index Phase PhaseSpec PhaseThm Symm SymmSpec SymmThm Compute ComputeSpec ComputeThm4 Str Gen Ideal IdealSpec IdealThm RatFun Analytic AnalyticSpec AnalyticThm AnalyticThm2 AnalyticThm3 AnalyticThm4 Class ClassSpec ClassThm ClassThm2 Member MemberSpec MemberThm Properties03 Properties04 Properties05 Properties14 Properties17.
Import ListNotations.
Open Scope Z_scope.

(* equality of lists of generators as sets of texts *)
Definition teqb (a b : pystr) : bool := if list_eq_dec Z.eq_dec a b then true else false.
Definition subset21 (a b : list pystr) : bool := forallb (fun t => existsb (teqb t) b) a.
Definition ieq21 (a b : list pystr) : bool := subset21 a b && subset21 b a.
Lemma teqb_ok a b : teqb a b = true <-> a = b.
Proof. unfold teqb. destruct (list_eq_dec Z.eq_dec a b); split; congruence. Qed.
Lemma subset21_ok a b : subset21 a b = true <-> incl a b.
Proof.
  unfold subset21. rewrite forallb_forall. split; intros H x I.
  - specialize (H x I). apply existsb_exists in H as (y & J & E). apply teqb_ok in E. subst y. exact J.
  - apply existsb_exists. exists x. split; [apply H, I|apply teqb_ok; reflexivity].
Qed.
Lemma ieq21_ok a b : ieq21 a b = true <-> incl a b /\ incl b a.
Proof. unfold ieq21. rewrite andb_true_iff, !subset21_ok. reflexivity. Qed.
Lemma ieq21_equiv : equivalence ieq21.
Proof.
  split; [intros x; apply ieq21_ok; split; apply incl_refl|]. split.
  - intros x y H. apply ieq21_ok in H. apply ieq21_ok. tauto.
  - intros x y z H H'. apply ieq21_ok in H, H'. apply ieq21_ok. destruct H, H'. split; eapply incl_tran; eassumption.
Qed.
Lemma ieq21_images : respects_images 4 ieq21.
Proof.
  intros p es1 es2 I J P D1 D2 H E1 E2. apply ieq21_ok in H as [H1 H2]. apply ieq21_ok.
  assert (G : forall a b I J, lips_image a (p, false) = Ok I -> lips_image b (p, false) = Ok J -> incl a b -> incl I J).
  { clear. intros a b I J Ea Eb H x Ix. unfold lips_image in *. destruct (PhaseThm.rmapM_In _ _ _ _ Ea Ix) as (g & Ig & Eg). apply H in Ig.
    apply In_nth_error in Ig as (k & Nk). destruct (TwistorThm.rmapM_nth _ _ _ Eb _ _ Nk) as (y & Ny & Ey). rewrite Eg in Ey. injection Ey as <-. eapply nth_error_In; exact Ny. }
  split; eapply G; eassumption.
Qed.
Lemma ieq21_zeros (K : Fld) : respects_zeros 4 K ieq21.
Proof.
  intros es1 es2 d D1 D2 H (es & E & De & Z). apply ieq21_ok in H as [_ H]. clear D1 D2. rewrite E in H. revert H. generalize (map text es2). intros l H.
  assert (G : forall l, incl l (map text es) -> vanish 4 d l); [|apply G, H]. clear l H. induction l as [|t l IH]; intros H; [exists []; repeat split; constructor|].
  destruct (IH (fun x Ix => H x (or_intror Ix))) as (es' & -> & De' & Z'). destruct (proj1 (in_map_iff _ _ _) (H t (or_introl eq_refl))) as (e & <- & Ie).
  exists (e :: es'). split; [reflexivity|]. split; constructor; try assumption; [apply (proj1 (Forall_forall _ _) De), Ie|apply (proj1 (Forall_forall _ _) Z), Ie].
Qed.
(* a1*c2 and a2*c1 *)
Definition gens21 : list poly := [Mul (Var 97 1) (Var 99 2); Mul (Var 97 2) (Var 99 1)].
Lemma gens21_ok : in_components 4 gens21.
Proof. repeat constructor; cbn; unfold covariant_var; lia. Qed.

(* C73: equivalenceClass lists the images of the ideal under the permutations: no two of the
   listed ideals are equal, every image is equal to a listed one, and the permutation by which
   an ideal is listed is the first one that leads to it. *)
Theorem C73_classes : forall (n : nat) (ieq : list pystr -> list pystr -> bool) (es : list poly), (n <= 9)%nat -> equivalence ieq -> in_components n es ->
  exists L, equivalence_class ieq (map text es) n = Ok L /\ apart ieq L /\
  (forall r I, In (r, I) L -> (exists p, r = (p, false) /\ is_perm n p) /\ lips_image (map text es) r = Ok I) /\
  (forall p J, is_perm n p -> lips_image (map text es) (p, false) = Ok J -> exists r I, In (r, I) L /\ ieq I J = true) /\
  (forall r I, In (r, I) L -> exists l1 l2, all_symmetries n = l1 ++ r :: l2 /\ forall q J, In q l1 -> lips_image (map text es) q = Ok J -> ieq I J = false).
Proof. exact (fun n ieq es N Q D => classes n N ieq Q es D). Qed.
Print Assumptions C73_classes.
(* the ideal itself comes first, with the identity *)
Theorem C73_itself : forall (n : nat) (ieq : list pystr -> list pystr -> bool) (es : list poly), (n <= 9)%nat -> equivalence ieq -> in_components n es ->
  exists L, equivalence_class ieq (map text es) n = Ok ((upto n, false, map text es) :: L).
Proof. exact (fun n ieq es N Q D => class_of_itself n N ieq Q es D). Qed.
Print Assumptions C73_itself.
(* C73: their number times the number of permutations that leave the ideal alone is n! *)
Theorem C73_number : forall (n : nat) (ieq : list pystr -> list pystr -> bool) (es : list poly) (S : list (list Z)), (n <= 9)%nat -> equivalence ieq -> respects_images n ieq -> in_components n es ->
  NoDup S -> (forall p, In p S <-> is_perm n p /\ exists J, lips_image (map text es) (p, false) = Ok J /\ ieq J (map text es) = true) ->
  exists L, equivalence_class ieq (map text es) n = Ok L /\ (length L * length S)%nat = fact n.
Proof. exact (fun n ieq es S N Q Re D => orbit_count n N ieq Q es D Re S). Qed.
Print Assumptions C73_number.
(* C73: all permutations of a point where one of the listed ideals vanishes are points where
   one of them vanishes *)
Theorem C73_points : forall (K : Fld) (n : nat) (ieq : list pystr -> list pystr -> bool) (es : list poly) L p (s s' : ps K), (0 < n <= 9)%nat -> equivalence ieq -> respects_zeros n K ieq -> in_components n es ->
  equivalence_class ieq (map text es) n = Ok L -> is_perm n p -> length s = n -> different s -> sound s -> Forall plain s -> image (p, false) s = Ok s' ->
  on_union n L s -> on_union n L s'.
Proof. exact (fun K n ieq es L p s s' N Q So D => union_invariant n (proj2 N) ieq Q (proj1 N) es D So L p s s'). Qed.
Print Assumptions C73_points.
Example C73_ex : equivalence ieq21 /\ respects_images 4 ieq21 /\ respects_zeros 4 GF13 ieq21 /\ in_components 4 gens21 /\ map text gens21 = [lit "a1*c2"; lit "a2*c1"] /\
  (exists L, equivalence_class ieq21 (map text gens21) 4 = Ok L /\ length L = 6%nat) /\
  exists S, NoDup S /\ length S = 4%nat /\ forall p, In p S <-> is_perm 4 p /\ exists J, lips_image (map text gens21) (p, false) = Ok J /\ ieq21 J (map text gens21) = true.
Proof.
  split; [exact ieq21_equiv|]. split; [exact ieq21_images|]. split; [exact (ieq21_zeros GF13)|]. split; [exact gens21_ok|]. split; [reflexivity|].
  split; [exists (get_ok [] (equivalence_class ieq21 (map text gens21) 4)); split; vm_compute; reflexivity|].
  set (f := fun p : list Z => match lips_image (map text gens21) (p, false) with Ok J => ieq21 J (map text gens21) | Err _ => false end).
  exists (filter f (permutations (upto 4))). split; [apply NoDup_filter, permutations_NoDup, IndexThm.upto_NoDup|]. split; [vm_compute; reflexivity|].
  intros p. rewrite filter_In, permutations_In. unfold f. split; intros [P H]; (split; [exact P|]).
  - destruct (lips_image (map text gens21) (p, false)) as [J|]; [eauto|discriminate].
  - destruct H as (J & -> & H). exact H.
Qed.

(* four legs where a1 and a2 vanish *)
Definition ex21 : ps GF13 := from_spinors
  [(V2 (g13 0) (g13 1), V2 (g13 1) (g13 2)); (V2 (g13 0) (g13 3), V2 (g13 4) (g13 1)); (V2 (g13 1) (g13 5), V2 (g13 2) (g13 7)); (V2 (g13 2) (g13 6), V2 (g13 1) (g13 1))].
Example C73_points_ex : is_perm 4 [3; 1; 4; 2] /\ different ex21 /\ sound ex21 /\ Forall plain ex21 /\ (exists s', image ([3; 1; 4; 2], false) ex21 = Ok s') /\
  forall L, equivalence_class ieq21 (map text gens21) 4 = Ok L -> on_union 4 L ex21.
Proof.
  split; [unfold is_perm; apply NoDup_Permutation; [repeat constructor; cbn; lia|apply IndexThm.upto_NoDup|]; intros x; cbn; lia|]. split; [apply distinctb_ok; vm_compute; reflexivity|]. split; [apply from_spinors_sound|]. split; [apply from_spinors_plain|].
  split; [exists (get_ok [] (image ([3; 1; 4; 2], false) ex21)); fok|]. intros L E.
  destruct (C73_itself 4 ieq21 gens21 ltac:(lia) ieq21_equiv gens21_ok) as (L' & E'). rewrite E in E'. injection E' as ->.
  exists (upto 4, false), (map text gens21), (get_ok [] (analytical_subs_d ex21)). split; [left; reflexivity|]. split; [fok|].
  exists gens21. split; [reflexivity|]. split; [exact gens21_ok|]. constructor; [|constructor; [|constructor]]; fsomeq.
Qed.

(* C74: a covariant that LipsIdeal finds in the ideal of other covariants vanishes at every
   massless point where they do, if what syngular finds in the ideal generated by polynomials
   is in it. *)
Theorem C74_vanishes : forall (K0 K : Fld) (R0 : K0 -> K -> Prop) (s0 : ps K0) mem other (covariants : list inv) (mc : bool) gs (t : ps K) (e : inv),
  ring_rel K0 K R0 -> functional R0 -> (forall x, exists y, R0 x y) -> lips_generators s0 covariants mc = Ok gs -> (forall x, mem x = true -> generated (4 * length s0) gs x) ->
  (exists v, compute t e = Ok v) -> length t = length s0 -> Forall reproduces t ->
  contains s0 mem other e = Ok true -> Forall (vanishes t) covariants -> (mc = true -> total_mom t = mzero) -> vanishes t e.
Proof. exact (fun K0 K R0 s0 mem other covs mc gs t e RR Fu Tot Eg Dm => contains_vanishes s0 mem other covs mc gs Eg R0 RR Fu Tot t e Dm). Qed.
Print Assumptions C74_vanishes.
(* C74: every covariant is in the ideal that is made from it *)
Theorem C74_given : forall (K0 : Fld) (s0 : ps K0) mem other (covariants : list inv) (mc : bool) gs (e : inv),
  lips_generators s0 covariants mc = Ok gs -> (forall g, In g gs -> mem g = true) -> In e covariants -> contains s0 mem other e = Ok true.
Proof. exact (fun K0 s0 mem other covs mc gs e Eg => contains_given s0 mem other covs mc gs Eg e). Qed.
Print Assumptions C74_given.
(* C74: there is an answer for each covariant that can be computed at some massless point *)
Theorem C74_answers : forall (K0 K : Fld) (R0 : K0 -> K -> Prop) (s0 : ps K0) mem other (covariants : list inv) (mc : bool) gs (t : ps K) (e : inv) v,
  ring_rel K0 K R0 -> lips_generators s0 covariants mc = Ok gs -> length t = length s0 -> Forall reproduces t -> compute t e = Ok v -> exists b, contains s0 mem other e = Ok b.
Proof. exact (fun K0 K R0 s0 mem other covs mc gs t e v RR Eg => contains_answers s0 mem other covs mc gs Eg R0 RR t e v). Qed.
Print Assumptions C74_answers.
Example C74_ex : exists gs, lips_generators ex5 covs17 true = Ok gs /\ let mem := fun x => existsb (feqb x) gs in
  (forall x, mem x = true -> generated (4 * length ex5) gs x) /\ (forall g, In g gs -> mem g = true) /\ In (IA2 1 2) covs17 /\
  ring_rel GF13 GF13 eq /\ functional (@eq GF13) /\ exists v, compute ex5 (IA2 1 2) = Ok v.
Proof.
  assert (Ne : ex5 <> []) by discriminate. assert (Hs := rep_spinors _ ex5_reproduces). destruct (gens_exist ex5 covs17 true Ne Hs in_varies17) as (gs & E). exists gs. split; [exact E|]. cbv zeta. split.
  { intros x H. apply existsb_exists in H as (g & I & Eg). apply feqb_ok in Eg. subst g. apply gen_in, I. }
  split. { intros g I. apply existsb_exists. exists g. split; [exact I|apply feqb_ok; reflexivity]. }
  split; [left; reflexivity|]. split; [apply eq_ring|]. split; [apply eq_fun|]. exists (get_ok (VS f0) (compute ex5 (IA2 1 2))). fok.
Qed.

(* C75: the generators of conversionIdeal vanish at a massless point, with values for the
   symbols A1, A2, ... and B1, B2, ..., exactly if the values are those of the brackets <1|2>,
   <1|3>, ... and [1|2], [1|3], ... at the point. *)
Theorem C75_conversion : forall (K0 K : Fld) (R0 : K0 -> K -> Prop) (s0 : ps K0) c (t : ps K) (d : dict K) (w : pystr -> option K), ring_rel K0 K R0 -> functional R0 ->
  conversion_generators s0 = Ok c -> length t = length s0 -> Forall reproduces t -> analytical_subs_d t = Ok d ->
  (converted R0 (4 * length s0) (given d) w c <-> brackets_are t w).
Proof. exact (fun K0 K R0 s0 c t d w RR Fu => conv_graph s0 R0 RR Fu c t d w). Qed.
Print Assumptions C75_conversion.
Theorem C75_exists : forall (K0 : Fld) (s0 : ps K0), Forall has_spinors s0 -> exists c, conversion_generators s0 = Ok c.
Proof. exact (fun K0 s0 => conv_exists s0). Qed.
Print Assumptions C75_exists.
(* C75: the generators of the ideal of invariants vanish for the invariants of every massless
   point where the covariants do, if the elimination returns consequences *)
Theorem C75_spinor_ideal : forall (K0 K : Fld) (R0 : K0 -> K -> Prop) (s0 : ps K0) eliminate (invariants : list inv) (mc : bool) ts (t : ps K) (w : pystr -> option K), ring_rel K0 K R0 -> functional R0 ->
  spinor_generators s0 eliminate invariants mc = Ok ts ->
  (forall c g, conversion_generators s0 = Ok c -> lips_generators s0 invariants mc = Ok g -> consequences R0 (length s0) (4 * length s0) c g (eliminate c g)) ->
  length t = length s0 -> Forall reproduces t -> Forall (vanishes t) invariants -> (mc = true -> total_mom t = mzero) -> brackets_are t w ->
  forall x, In x ts -> exists e, x = text e /\ sum e /\ vars (invariant_var (Z.of_nat (length s0))) e /\ value w e = Some 0%fld.
Proof. exact (fun K0 K R0 s0 el covs mc ts t w RR Fu => spinor_zero s0 R0 RR Fu el covs mc ts t w). Qed.
Print Assumptions C75_spinor_ideal.
(* the values of C44 are such values *)
Theorem C75_values : forall (K : Fld) (t : ps K) (d : dict K), invariant_values t = Ok d -> brackets_are t (fun x => dict_get x d).
Proof. exact (fun K t d => values_brackets t d). Qed.
Print Assumptions C75_values.
Example C75_ex : ring_rel GF13 GF13 eq /\ functional (@eq GF13) /\ Forall reproduces ex5 /\ (exists d, analytical_subs_d ex5 = Ok d) /\ (exists d, invariant_values ex5 = Ok d) /\
  pair_number 5 1 2 = 1 /\ pair_number 5 2 3 = 5 /\ pair_number 5 4 5 = 10 /\
  (exists ts, spinor_generators ex5 (fun _ _ => [lit "A1"]) [IA2 1 2] true = Ok ts) /\
  forall c g, conversion_generators ex5 = Ok c -> lips_generators ex5 [IA2 1 2] true = Ok g -> consequences (@eq GF13) 5 20 c g [lit "A1"].
Proof.
  split; [apply eq_ring|]. split; [apply eq_fun|]. split; [exact ex5_reproduces|]. assert (Hs := rep_spinors _ ex5_reproduces). split; [exact (subs_exists _ Hs)|].
  split; [exists (get_ok [] (invariant_values ex5)); fok|]. repeat (split; [reflexivity|]). split.
  - unfold spinor_generators. destruct (conv_exists ex5 Hs) as (c & ->). cbn [rbind]. assert (Ne : ex5 <> []) by discriminate.
    destruct (gens_exist ex5 [IA2 1 2] true Ne Hs) as (g & ->); [|cbn [rbind]; eauto]. assert (V := in_varies17). unfold covs17 in V. inversion V; subst. constructor; [assumption|constructor].
  - intros c g Ec Eg t [<-|[]]. exists (Var 65 1). split; [reflexivity|]. split; [repeat sum_step|]. split; [split; [left; reflexivity|change (1 <= 1 <= 10); lia]|].
    intros v w Hc Hg. destruct (conv_parts ex5 c Ec) as (S & ES & Ic). destruct (gens_parts ex5 _ _ _ Eg) as (S' & ES' & Ig & _). rewrite ES in ES'. injection ES' as <-.
    destruct (Ig (IA2 1 2) (or_introl eq_refl)) as (x & Ex & Ix). destruct (make_built _ _ _ ES) as (LS & RS & SoS).
    destruct (bracket_ok S true 1 2 SoS RS ltac:(lia) ltac:(rewrite LS; cbn; lia)) as (y & Ey). cbn [two_of] in Ey. rewrite Ey in Ex. injection Ex as <-.
    destruct (Hc (var_name 65 1) y) as (z & Sz & W); [apply Ic; exists true, 1, 2; split; [lia|]; split; [cbn; lia|]; split; [reflexivity|exact Ey]|]. transitivity (Some z); [exact W|]. f_equal.
    assert (Z := Hg _ (Ix _ (or_introl eq_refl))).
    assert (H := proj1 (zero_lists (K := GF13) (tower GF13 20) (subst eq v 20) (subst_ring eq (eq_ring (K := GF13)) v 20) (subst_fun eq (eq_ring (K := GF13)) v 20 (eq_fun (K := GF13))) [y] [z] ltac:(repeat constructor; exact Sz))).
    specialize (H ltac:(intros u [<-|[]]; exact Z)). exact (Forall_inv H).
Qed.

(* C76: the variables of the rings are a1, b1, c1, d1, a2, ... (in the order of the components
   of a point) and A1, A2, ..., B1, B2, ..., one for each pair; and the number of legs is
   found again from the number of variables. *)
Theorem C76_covariant : forall n : nat, exists l, lips_covariant_symbols (Z.of_nat n) = Ok l /\ l = map name (seq 0 (4 * n)) /\ covariant_multiplicity l = Z.of_nat n.
Proof. intros n. exists (map name (seq 0 (4 * n))). assert (E := covariant_symbols_ok n). split; [exact E|]. split; [reflexivity|]. apply covariant_multiplicity_ok. exact E. Qed.
Print Assumptions C76_covariant.
Theorem C76_invariant : forall n : nat, (1 <= n)%nat -> let l := lips_invariant_symbols (Z.of_nat n) in
  l = map (fun k => var_name 65 (Z.of_nat k)) (seq 1 (n * (n - 1) / 2)) ++ map (fun k => var_name 66 (Z.of_nat k)) (seq 1 (n * (n - 1) / 2)) /\
  length l = (n * (n - 1))%nat /\ invariant_multiplicity l = Z.of_nat n.
Proof. exact (fun n N => conj (invariant_symbols_ok n) (conj (invariant_length n) (invariant_multiplicity_ok n N))). Qed.
Print Assumptions C76_invariant.
(* every pair has its variables, and no two pairs have the same *)
Theorem C76_pairs : forall n i j, 1 <= i < j -> j <= n -> 1 <= pair_number n i j /\ nth_error (pairs n) (Z.to_nat (pair_number n i j - 1)) = Some [i; j].
Proof. exact (fun n i j H J => conj (pair_number_pos n i j H J) (pairs_number n i j H J)). Qed.
Print Assumptions C76_pairs.
Example C76_ex : lips_covariant_symbols 2 = Ok (map lit ["a1"; "b1"; "c1"; "d1"; "a2"; "b2"; "c2"; "d2"]%string) /\ lips_invariant_symbols 3 = map lit ["A1"; "A2"; "A3"; "B1"; "B2"; "B3"]%string.
Proof. split; vm_compute; reflexivity. Qed.
(* for no legs there are no variables, which are read as one leg *)
Theorem C76_no_legs_refuted : exists n : nat, invariant_multiplicity (lips_invariant_symbols (Z.of_nat n)) <> Z.of_nat n.
Proof. exists 0%nat. vm_compute. discriminate. Qed.
Print Assumptions C76_no_legs_refuted.
