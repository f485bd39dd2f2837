(* C07, C19-C26: spinor strings. *)
From Coq Require Import List ZArith Bool Lia Permutation.
From Verif Require Import Base Fld Particle ParticleSpec ParticleThm Index IndexThm Phase PhaseSpec PhaseThm Det Arcs Compute ComputeSpec ComputeThm ComputeThm2 ComputeThm3 ComputeThm4 FldInst.
Import ListNotations.
Open Scope fld_scope.

(* five massless legs, momentum conserving *)
Definition ex5_sp : list (v2 GF13 * v2 GF13) :=
  [(V2 (g13 6) (g13 11), V2 (g13 1) (g13 11)); (V2 (g13 6) (g13 10), V2 (g13 1) (g13 6)); (V2 (g13 12) (g13 5), V2 (g13 5) (g13 11));
   (V2 (g13 12) (g13 8), V2 (g13 10) (g13 10)); (V2 (g13 1) (g13 10), V2 (g13 3) (g13 10))].
Definition ex5 : ps GF13 := from_spinors ex5_sp.
(* a massive leg: momentum assigned in the convention that needs no square root *)
Definition ex_massive : particle GF13 :=
  fst (assign_r2_sp Asymmetric (M2 (g13 1) (g13 2) (g13 3) (g13 4)) (new_spinors (V2 (g13 2) (g13 3)) (V2 (g13 5) (g13 7)))).
Lemma ex5_sound : sound ex5. Proof. apply from_spinors_sound. Qed.
Lemma ex5_reproduces : Forall (fun p => reproduces p) ex5. Proof. apply from_spinors_reproduces. Qed.
Lemma ex5_total : total_mom ex5 = mzero. Proof. fcomp. Qed.
Lemma ex5_plain : Forall plain ex5.
Proof. repeat (apply Forall_cons; [split; [reflexivity|right; split; discriminate]|]). apply Forall_nil. Qed.
Lemma ex5_leg k : (1 <= k <= 5)%Z -> massless_leg ex5 k.
Proof.
  intros H. destruct (getitem_ok ex5 k) as (p & G & _); [exact H|]. exists p. split; [exact G|].
  apply (proj1 (Forall_getitem _ _) ex5_reproduces k p G).
Qed.

(* C07: twice is the identity on the whole state, for legs without spin index *)
Theorem C07_flip_involution :
  forall (K : Fld) (p : particle K), consistent p -> plain p ->
  snd (angles_for_squares p) = Ok tt /\ fst (angles_for_squares (fst (angles_for_squares p))) = p.
Proof. exact (fun K p C P => conj (proj2 (step_flip p C)) (flip_twice p C P)). Qed.
Print Assumptions C07_flip_involution.
(* C07: every bracket and chain becomes the reversed one with brackets exchanged;
   s, m, Gram determinants, Omega, Pi, delta5 are unchanged *)
Theorem C07_flip_compute :
  forall (K : Fld) (s : ps K) (e : inv) (x : K), sound s -> Forall plain s -> flippable e ->
  (scalar (compute (ps_flip s) e) = Ok x <-> scalar (compute s (flip_str e)) = Ok x).
Proof. exact (fun K s e x => flip_compute s e x). Qed.
Print Assumptions C07_flip_compute.
(* C07: tr5 changes sign *)
Theorem C07_flip_tr5 :
  forall (K : Fld) (s : ps K) (a b c d : entry) (A B C D : m2 K), sound s -> Forall plain s ->
  entry_val false s a = Ok A -> entry_val false s b = Ok B -> entry_val false s c = Ok C -> entry_val false s d = Ok D ->
  (forall k, In (leg k) [a; b; c; d] -> massless_leg s k) -> (exists k, In (leg k) [a; b; c; d] /\ (1 <= k <= 9)%Z) ->
  exists x, c_tr5 s a b c d = Ok x /\ c_tr5 (ps_flip s) a b c d = Ok (- x).
Proof. exact (fun K s a b c d A B C D => flip_tr5 s a b c d A B C D). Qed.
Print Assumptions C07_flip_tr5.
(* C07: masses and momentum conservation *)
Theorem C07_flip_physical :
  forall (K : Fld) (s : ps K), sound s -> Forall plain s ->
  total_mom (ps_flip s) = mT (total_mom s) /\ sound (ps_flip s) /\ Forall plain (ps_flip s) /\
  Forall (fun p => lsq (fst (angles_for_squares p)) = lsq p) s.
Proof.
  exact (fun K s S P => conj (flip_total s S P) (conj (flip_sound s S) (conj (flip_plains s S P)
    (proj2 (Forall_forall _ s) (fun p Hp => flip_lsq p (proj1 (Forall_forall _ s) S p Hp) (proj1 (Forall_forall _ s) P p Hp)))))).
Qed.
Print Assumptions C07_flip_physical.
Example C07_ex : sound ex5 /\ Forall plain ex5 /\ flippable (IChain OAng 1 [leg 2; eplus (leg 3) (leg 4)] 5 CAng)%Z /\
  (exists x, scalar (compute (ps_flip ex5) (IChain OAng 1 [leg 2; eplus (leg 3) (leg 4)] 5 CAng)) = Ok x /\ x <> 0) /\
  massless_leg ex5 3 /\ consistent ex_massive /\ lsq ex_massive <> 0.
Proof.
  split; [apply ex5_sound|]. split; [apply ex5_plain|].
  split; [cbn; repeat split; discriminate|]. split; [|split; [apply ex5_leg; lia|split; [|fneq]]].
  - exists (get_ok (0 : GF13) (scalar (compute (ps_flip ex5) (IChain OAng 1 [leg 2; eplus (leg 3) (leg 4)] 5 CAng)%Z))).
    split; [fok|fneq].
  - apply (step_r2 Asymmetric), new_spinors_cons.
Qed.
Definition ex_spin : particle GF13 :=
  with_spin (Some true) (new_spinors (V2 (g13 2) (g13 3)) (V2 (g13 5) (g13 7))).
(* finding: for a leg with a spin index the second application leaves the negatives *)
Theorem C07_spin_index_refuted :
  exists p : particle GF13, consistent p /\ spin p = Some true /\
    let q := fst (angles_for_squares (fst (angles_for_squares p))) in r_d q <> r_d p /\ l_d q <> l_d p.
Proof.
  exists (ex_spin).
  split; [|split; [reflexivity|cbn zeta; split; intros H;
    apply (f_equal (fun o : option (v2 GF13) => match o with Some v => feqb (e0 v) (g13 2) || feqb (e0 v) (g13 5) | None => false end)) in H; vm_compute in H; discriminate]].
  apply consistent_spin, new_spinors_cons.
Qed.
Print Assumptions C07_spin_index_refuted.

(* C19 *)
Theorem C19_two_brackets :
  forall (K : Fld) (s : ps K) (a b c d : Z) (ab ac ad bc bd cd : K), sound s ->
  forall f, (f = c_A2 (K:=K) \/ f = c_S2 (K:=K)) ->
  f s a b = Ok ab -> f s a c = Ok ac -> f s a d = Ok ad -> f s b c = Ok bc -> f s b d = Ok bd -> f s c d = Ok cd ->
  f s b a = Ok (- ab) /\ f s a a = Ok 0 /\ ab * cd + ad * bc = ac * bd.
Proof. exact (fun K s a b c d ab ac ad bc bd cd => two_brackets s a b c d ab ac ad bc bd cd). Qed.
Print Assumptions C19_two_brackets.
Theorem C19_s_ab :
  forall (K : Fld) (s : ps K) (a b : Z), sound s -> massless_leg s a -> massless_leg s b ->
  exists pa pb x y, getitem s a = Ok pa /\ getitem s b = Ok pb /\
    scalar (compute s (IA2 a b)) = Ok x /\ scalar (compute s (IS2 b a)) = Ok y /\
    scalar (compute s (IS [a; b])) = Ok (x * y) /\ x * y = 2 * ldot pa pb.
Proof.
  exact (fun K s a b S Ma Mb => match s_two s a b S Ma Mb with
    ex_intro _ pa (ex_intro _ pb (ex_intro _ x (ex_intro _ y (conj Ga (conj Gb (conj H1 (conj H2 (conj H3 H4)))))))) =>
    ex_intro _ pa (ex_intro _ pb (ex_intro _ x (ex_intro _ y (conj Ga (conj Gb (conj (eq_trans (scalar_VS _) H1)
      (conj (eq_trans (scalar_VS _) H2) (conj (eq_trans (scalar_VS _) H3) H4)))))))) end).
Qed.
Print Assumptions C19_s_ab.
Example C19_ex : sound ex5 /\ massless_leg ex5 1 /\ massless_leg ex5 4 /\
  exists x, c_A2 ex5 1 4 = Ok x /\ x <> 0.
Proof.
  split; [apply ex5_sound|]. split; [apply ex5_leg; lia|]. split; [apply ex5_leg; lia|].
  exists (get_ok (0 : GF13) (c_A2 ex5 1 4)). split; [fok|fneq].
Qed.

(* C20 *)
Theorem C20_chain_additive :
  forall (K : Fld) (s : ps K) (o : obr) (a : Z) (es1 : list entry) (e f : entry) (es2 : list entry) (d : Z) (c : cbr) (x y : K),
  sound s -> c_chain s o a (es1 ++ e :: es2) d c = Ok x -> c_chain s o a (es1 ++ f :: es2) d c = Ok y ->
  c_chain s o a (es1 ++ eplus e f :: es2) d c = Ok (x + y) /\
  c_chain s o a (es1 ++ eminus e f :: es2) d c = Ok (x - y).
Proof. exact (fun K s o a es1 e f es2 d c x y => chain_additive s o a es1 e f es2 d c x y). Qed.
Print Assumptions C20_chain_additive.
Theorem C20_chain_factor :
  forall (K : Fld) (s : ps K) (o : obr) (a : Z) (es1 : list entry) (k : Z) (es2 : list entry) (d : Z) (c : cbr) (z : K),
  sound s -> massless_leg s k -> o <> OLt -> bracket s o a (es1 ++ leg k :: es2) d c = Ok z ->
  exists x y, bracket s o a es1 k (end_of o (length es1)) = Ok x /\
    bracket s (swap_o (open_of (end_of o (length es1)))) k es2 d c = Ok y /\ z = x * y.
Proof. exact (fun K s o a es1 k es2 d c z => chain_factor s o a es1 k es2 d c z). Qed.
Print Assumptions C20_chain_factor.
Theorem C20_chain_reverse :
  forall (K : Fld) (s : ps K) (o : obr) (a : Z) (es : list entry) (d : Z) (c : cbr) (z : K),
  sound s -> o <> OLt -> c = end_of o (length es) -> bracket s o a es d c = Ok z ->
  bracket s (open_of c) d (rev es) a (close_of o) = Ok (if Nat.even (length es) then - z else z).
Proof. exact (fun K s o a es d c z => chain_reverse s o a es d c z). Qed.
Print Assumptions C20_chain_reverse.
Example C20_ex : (exists z, bracket ex5 OAng 1 [leg 2; eplus (leg 3) (leg 4); leg 3] 5 CSq = Ok z /\ z <> 0) /\
  (exists z, bracket ex5 OSq 1 [eminus (leg 2) (leg 5); leg 4] 3 CSq = Ok z /\ z <> 0).
Proof.
  split; [exists (get_ok (0 : GF13) (bracket ex5 OAng 1 [leg 2; eplus (leg 3) (leg 4); leg 3] 5 CSq)%Z)
         |exists (get_ok (0 : GF13) (bracket ex5 OSq 1 [eminus (leg 2) (leg 5); leg 4] 3 CSq)%Z)]; (split; [fok|fneq]).
Qed.

(* C21: J the legs of the complement of I *)
Theorem C21_chain_complement :
  forall (K : Fld) (s : ps K) (o : obr) (a : Z) (es1 : list entry) (i : Z) (l : list Z) (j : Z) (m : list Z) (es2 : list entry) (d : Z) (c : cbr) (x : K),
  sound s -> total_mom s = mzero -> Permutation ((i :: l) ++ j :: m) (upto (length s)) ->
  c_chain s o a (es1 ++ esum i l :: es2) d c = Ok x ->
  c_chain s o a (es1 ++ esum j m :: es2) d c = Ok (- x).
Proof. exact (fun K s o a es1 i l j m es2 d c x => chain_complement s o a es1 i l j m es2 d c x). Qed.
Print Assumptions C21_chain_complement.
Theorem C21_end_legs :
  forall (K : Fld) (s : ps K) (o : obr) (a : Z) (e : entry) (es : list entry) (d : Z) (c : cbr) (x : K), sound s ->
  (massless_leg s a -> c_chain s o a (e :: es) d c = Ok x ->
     c_chain s o a (eplus e (leg a) :: es) d c = Ok x /\ c_chain s o a (eminus e (leg a) :: es) d c = Ok x) /\
  (o <> OLt -> massless_leg s d -> c_chain s o a (es ++ [e]) d c = Ok x ->
     c_chain s o a (es ++ [eplus e (leg d)]) d c = Ok x /\ c_chain s o a (es ++ [eminus e (leg d)]) d c = Ok x).
Proof. exact (fun K s o a e es d c x S => conj (chain_first_leg s o a e es d c x S) (chain_last_leg s o a es e d c x S)). Qed.
Print Assumptions C21_end_legs.
Theorem C21_s_complement :
  forall (K : Fld) (s : ps K) (i : Z) (l : list Z) (j : Z) (m : list Z),
  Permutation ((i :: l) ++ j :: m) (upto (length s)) -> total_mom s = mzero ->
  exists x, c_S s (i :: l) = Ok x /\ c_S s (j :: m) = Ok x.
Proof. exact (fun K s i l j m => s_complement s i l j m). Qed.
Print Assumptions C21_s_complement.
Theorem C21_sum_j :
  forall (K : Fld) (s : ps K) (a b : Z), sound s -> total_mom s = mzero -> Forall (fun p => reproduces p) s ->
  (1 <= a <= Z.of_nat (length s))%Z -> (1 <= b <= Z.of_nat (length s))%Z ->
  exists xs, rmapM (fun j => rbind (c_A2 s a j) (fun x => rmap (fun y => x * y) (c_S2 s j b))) (upto (length s)) = Ok xs /\
    fold_right fadd 0 xs = 0.
Proof. exact (fun K s a b => sum_j s a b). Qed.
Print Assumptions C21_sum_j.
Example C21_ex : sound ex5 /\ total_mom ex5 = mzero /\ Forall (fun p => reproduces p) ex5 /\
  Permutation ([3; 1] ++ [5; 2; 4])%Z (upto (length ex5)) /\
  (exists x, c_chain ex5 OAng 2 [leg 5; esum 3 [1%Z]] 4 CAng = Ok x /\ x <> 0).
Proof.
  split; [apply ex5_sound|]. split; [apply ex5_total|]. split; [apply ex5_reproduces|]. split.
  - cbn. apply NoDup_Permutation; [repeat constructor; cbn; intuition lia|repeat constructor; cbn; intuition lia|].
    intros x; cbn; intuition lia.
  - exists (get_ok (0 : GF13) (c_chain ex5 OAng 2 [leg 5; esum 3 [1%Z]] 4 CAng)%Z). split; [fok|fneq].
Qed.

(* C22 and C23: |i> -> w_i A |i>, [i| -> [i| B / w_i, det A = det B = 1 *)
Theorem C22_C23_covariance :
  forall (K : Fld) (A B : m2 K) (w : Z -> K) (s s' : ps K), boosted A B w s s' ->
  forall e, closed e -> scalar (compute s' e) = rmap (fun x => weight w e * x) (scalar (compute s e)).
Proof. exact (fun K A B w s s' H e => boost_compute A B w s s' H e). Qed.
Print Assumptions C22_C23_covariance.
(* C22: the two assignments that rescale leg k *)
Theorem C22_little_group :
  forall (K : Fld) (s : ps K) (k : Z) (t : K) (p : particle K) (r l : v2 K),
  sound s -> getitem s k = Ok p -> r_d p = Some r -> l_d p = Some l -> reproduces p -> t <> 0 ->
  exists s', rescale k t r l s = (s', Ok tt) /\ forall e, closed e ->
    scalar (compute s' e) = rmap (fun x => weight (fun j => if Z.eqb j k then t else 1) e * x) (scalar (compute s e)).
Proof.
  exact (fun K s k t p r l S G Hr Hl Rp Nt => match rescale_ok s k t p r l S G Hr Hl Rp Nt with
    ex_intro _ s' (conj E B) => ex_intro _ s' (conj E (fun e => boost_compute mone mone _ s s' B e)) end).
Qed.
Print Assumptions C22_little_group.
(* C23: all spinors transformed by A and B *)
Theorem C23_lorentz :
  forall (K : Fld) (A B : m2 K) (l : list (v2 K * v2 K)), mdet A = 1 -> mdet B = 1 ->
  forall e, closed e ->
  scalar (compute (from_spinors (map (fun x => (mv A (fst x), vm (snd x) B)) l)) e) = scalar (compute (from_spinors l) e).
Proof. exact (fun K A B l HA HB e Hc => lorentz_compute A B l HA HB e Hc). Qed.
Print Assumptions C23_lorentz.
Example C22_ex : (exists p r l, getitem ex5 2 = Ok p /\ r_d p = Some r /\ l_d p = Some l /\ reproduces p)%Z /\
  closed (IChain OAng 2 [leg 1; leg 3] 2 CAng)%Z /\ closed (ITr [leg 1; leg 2; leg 3; leg 4])%Z /\ closed (ITr5 (leg 1) (leg 2) (leg 3) (leg 4))%Z /\
  mdet (M2 (g13 2) (g13 3) (g13 1) (g13 2)) = 1.
Proof.
  split; [|repeat split; try discriminate; fcomp].
  destruct (ex5_leg 2 ltac:(lia)) as (p & G & R). exists p. destruct (R) as (r & l & Hr & Hl & _). exists r, l. auto.
Qed.
(* finding: a trace of odd length is not Lorentz invariant *)
Theorem C23_odd_trace_refuted :
  exists (A B : m2 GF13) (l : list (v2 GF13 * v2 GF13)) (e : list entry) (x y : GF13), mdet A = 1 /\ mdet B = 1 /\
  c_tr (from_spinors l) e = Ok x /\ c_tr (from_spinors (map (fun z => (mv A (fst z), vm (snd z) B)) l)) e = Ok y /\ x <> y.
Proof.
  exists (M2 (g13 2) (g13 3) (g13 1) (g13 2)), (M2 (g13 1) (g13 0) (g13 0) (g13 1)), ex5_sp, [leg 1%Z],
    (get_ok (0 : GF13) (c_tr (from_spinors ex5_sp) [leg 1%Z])),
    (get_ok (0 : GF13) (c_tr (from_spinors (map (fun z => (mv (M2 (g13 2) (g13 3) (g13 1) (g13 2)) (fst z), vm (snd z) (M2 (g13 1) (g13 0) (g13 0) (g13 1)))) ex5_sp)) [leg 1%Z])).
  split; [fcomp|]. split; [fcomp|]. split; [fok|]. split; [fok|]. fneq.
Qed.
Print Assumptions C23_odd_trace_refuted.

(* C24 *)
Theorem C24_brackets_partial :
  forall (K : Fld) (s : ps K) (o : obr) (a : Z) (es : list entry) (d : Z) (c : cbr), es <> [] -> o <> OLt ->
  (c_chain s o a es d c = Err SyntaxError <-> c <> end_of o (length es)).
Proof. exact (fun K s o a es d c => chain_syntax s o a es d c). Qed.
Print Assumptions C24_brackets_partial.
(* finding: ASCII brackets are accepted by the pattern, skip the check of the
   brackets and evaluate a square bracket instead *)
Theorem C24_ascii_refuted :
  exists (s : ps GF13) (x y : GF13), sound s /\ x <> y /\
  c_chain s OAng 1 [leg 2; leg 3] 4 CAng = Ok x /\ c_chain s OLt 1 [leg 2; leg 3] 4 CGt = Ok y /\
  c_chain s OSq 1 [leg 2; leg 3] 4 CSq = Ok y /\
  c_chain s OAng 1 [leg 2; leg 3] 4 CSq = Err SyntaxError /\ c_chain s OLt 1 [leg 2; leg 3] 4 CSq = Ok y.
Proof.
  exists ex5, (get_ok (0 : GF13) (c_chain ex5 OAng 1 [leg 2; leg 3] 4 CAng)%Z), (get_ok (0 : GF13) (c_chain ex5 OLt 1 [leg 2; leg 3] 4 CGt)%Z).
  split; [apply ex5_sound|]. split; [fneq|]. split; [fok|]. split; [fok|]. split; [fokeq|]. split; [reflexivity|fokeq].
Qed.
Print Assumptions C24_ascii_refuted.
Example C24_ex : [leg 2; leg 3]%Z <> [] /\ OAng <> OLt /\ CSq <> end_of OAng 2 /\ CAng = end_of OAng 2 /\ CSq = end_of OAng 3.
Proof. repeat split; discriminate. Qed.

(* C25: four legs *)
Theorem C25_tr5_legs :
  forall (K : Fld) (s : ps K) (a b c d : Z), sound s -> tr5_leg s a -> tr5_leg s b -> tr5_leg s c -> tr5_leg s d ->
  let t x y z w := c_tr5 s (leg x) (leg y) (leg z) (leg w) in
  (exists x, t a b c d = Ok x /\ t b a c d = Ok (- x) /\ t c b a d = Ok (- x) /\ t d b c a = Ok (- x) /\
     t a c b d = Ok (- x) /\ t a d c b = Ok (- x) /\ t a b d c = Ok (- x)) /\
  t a a b c = Ok 0 /\ t a b a c = Ok 0 /\ t a b c a = Ok 0 /\ t b a a c = Ok 0 /\ t b a c a = Ok 0 /\ t b c a a = Ok 0.
Proof. exact (fun K s a b c d S Ha Hb Hc Hd => tr5_legs s a b c d S Ha Hb Hc Hd). Qed.
Print Assumptions C25_tr5_legs.
(* C25: the first entry a leg, the others any sums and differences *)
Theorem C25_tr5_first_leg :
  forall (K : Fld) (s : ps K) (a : Z) (b b' c d : entry) (B B' C D : m2 K), sound s -> tr5_leg s a ->
  entry_val false s b = Ok B -> entry_val false s b' = Ok B' -> entry_val false s c = Ok C -> entry_val false s d = Ok D ->
  exists x y, c_tr5 s (leg a) b c d = Ok x /\ c_tr5 s (leg a) b' c d = Ok y /\
    c_tr5 s (leg a) (eplus b b') c d = Ok (x + y) /\ c_tr5 s (leg a) (eminus b b') c d = Ok (x - y) /\
    c_tr5 s (leg a) c b d = Ok (- x) /\ c_tr5 s (leg a) d c b = Ok (- x) /\ c_tr5 s (leg a) b d c = Ok (- x) /\
    c_tr5 s (leg a) b b c = Ok 0 /\ c_tr5 s (leg a) b c b = Ok 0 /\ c_tr5 s (leg a) c b b = Ok 0.
Proof. exact (fun K s a b b' c d B B' C D => tr5_first_leg s a b b' c d B B' C D). Qed.
Print Assumptions C25_tr5_first_leg.
(* C25: the value in every case; the multilinear antisymmetric form T5 up to a
   sign that depends on how the entries are written *)
Theorem C25_tr5_value_partial :
  forall (K : Fld) (s : ps K) (a b c d : entry) (A B C D : m2 K), sound s ->
  entry_val false s a = Ok A -> entry_val false s b = Ok B -> entry_val false s c = Ok C -> entry_val false s d = Ok D ->
  match sgn_rot a b c d with
  | Some (k, even) => massless_leg s k -> c_tr5 s a b c d = Ok (if even then T5 A B C D else - T5 A B C D)
  | None => c_tr5 s a b c d = Err NotImplementedError
  end.
Proof. exact (fun K s a b c d A B C D => tr5_value s a b c d A B C D). Qed.
Print Assumptions C25_tr5_value_partial.
Theorem C25_T5_multilinear_antisymmetric :
  forall (K : Fld) (P P' Q R S : m2 K),
  T5 (madd P P') Q R S = T5 P Q R S + T5 P' Q R S /\ T5 (msub P P') Q R S = T5 P Q R S - T5 P' Q R S /\
  T5 Q P R S = - T5 P Q R S /\ T5 P R Q S = - T5 P Q R S /\ T5 P Q S R = - T5 P Q R S /\ T5 P P Q R = 0.
Proof.
  exact (fun K P P' Q R S => conj (T5_add P P' Q R S) (conj (T5_sub P P' Q R S) (conj (T5_swap12 P Q R S)
    (conj (T5_swap23 P Q R S) (conj (T5_swap34 P Q R S) (T5_rep P Q R)))))).
Qed.
Print Assumptions C25_T5_multilinear_antisymmetric.
Example C25_ex : tr5_leg ex5 1 /\ tr5_leg ex5 2 /\ (exists x, c_tr5 ex5 (leg 1) (leg 2) (leg 3) (leg 4) = Ok x /\ x <> 0) /\
  sgn_rot (esum 1 [2%Z]) (leg 3) (leg 4) (leg 5) = Some (3, false)%Z.
Proof.
  split; [split; [lia|apply ex5_leg; lia]|]. split; [split; [lia|apply ex5_leg; lia]|]. split; [|reflexivity].
  exists (get_ok (0 : GF13) (c_tr5 ex5 (leg 1) (leg 2) (leg 3) (leg 4))%Z). split; [fok|fneq].
Qed.
(* finding: tr5(1+2|3|4|6) is minus the sum of tr5(1|3|4|6) and tr5(2|3|4|6) *)
Theorem C25_tr5_sum_refuted :
  exists (s : ps GF13) (x y z : GF13), sound s /\ Forall (fun p => reproduces p) s /\
  c_tr5 s (leg 1) (leg 3) (leg 4) (leg 5) = Ok x /\ c_tr5 s (leg 2) (leg 3) (leg 4) (leg 5) = Ok y /\
  c_tr5 s (esum 1 [2%Z]) (leg 3) (leg 4) (leg 5) = Ok z /\ z <> x + y /\ z = - (x + y).
Proof.
  set (s := from_spinors ((V2 (g13 1) (g13 5), V2 (g13 2) (g13 3)) :: ex5_sp)).
  exists s, (get_ok (0 : GF13) (c_tr5 s (leg 1) (leg 3) (leg 4) (leg 5))%Z), (get_ok (0 : GF13) (c_tr5 s (leg 2) (leg 3) (leg 4) (leg 5))%Z),
    (get_ok (0 : GF13) (c_tr5 s (esum 1 [2%Z]) (leg 3) (leg 4) (leg 5))%Z).
  split; [apply from_spinors_sound|]. split; [apply from_spinors_reproduces|].
  split; [fok|]. split; [fok|]. split; [fok|]. split; [fneq|fcomp].
Qed.
Print Assumptions C25_tr5_sum_refuted.

(* C26 *)
Theorem C26_traces :
  forall (K : Fld) (s : ps K), sound s ->
  (forall e f es x, Nat.even (length es) = true -> c_tr s (e :: f :: es) = Ok x -> c_tr s (es ++ [e; f]) = Ok x) /\
  (forall es x, Nat.even (length es) = true -> c_tr s es = Ok x -> c_tr s (rev es) = Ok x) /\
  (forall a b, (1 <= a <= Z.of_nat (length s))%Z -> (1 <= b <= Z.of_nat (length s))%Z ->
     exists pa pb, getitem s a = Ok pa /\ getitem s b = Ok pb /\ c_tr s [leg a; leg b] = Ok (2 * ldot pa pb)) /\
  (forall a b c d x y, tr5_leg s a -> c_tr s [leg a; b; c; d] = Ok x -> c_tr s [b; c; d; leg a] = Ok y ->
     c_tr5 s (leg a) b c d = Ok (x - y)).
Proof.
  exact (fun K s S => conj (fun e f es x => tr_rotate2 s e f es x S) (conj (fun es x => tr_reverse s es x S)
    (conj (fun a b => tr_two s a b S) (fun a b c d x y => tr_tr5 s a b c d x y S)))).
Qed.
Print Assumptions C26_traces.
Example C26_ex : sound ex5 /\ tr5_leg ex5 1 /\ (exists x, c_tr ex5 [leg 1; esum 2 [3%Z]; leg 3; leg 4] = Ok x /\ x <> 0).
Proof.
  split; [apply ex5_sound|]. split; [split; [lia|apply ex5_leg; lia]|].
  exists (get_ok (0 : GF13) (c_tr ex5 [leg 1; esum 2 [3%Z]; leg 3; leg 4])%Z). split; [fok|fneq].
Qed.
(* the trace rotated by one entry is that of the opposite chirality, not that of the
   reversed string *)
Theorem C26_rotation_by_one_refuted :
  exists (s : ps GF13) (x y : GF13), sound s /\
  c_tr s [leg 1; leg 2; leg 3; leg 4] = Ok x /\ c_tr s [leg 4; leg 3; leg 2; leg 1] = Ok x /\
  c_tr s [leg 2; leg 3; leg 4; leg 1] = Ok y /\ x <> y.
Proof.
  exists ex5, (get_ok (0 : GF13) (c_tr ex5 [leg 1; leg 2; leg 3; leg 4])%Z), (get_ok (0 : GF13) (c_tr ex5 [leg 2; leg 3; leg 4; leg 1])%Z).
  split; [apply ex5_sound|]. split; [fok|]. split; [fokeq|]. split; [fok|fneq].
Qed.
Print Assumptions C26_rotation_by_one_refuted.
