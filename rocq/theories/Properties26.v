(* C82: reduction of a point modulo a prime, and the value of every text there.  C83: check_consistency.
   C84: != and hash of points. *)
From Coq Require Import Ascii String.
From Coq Require Import List ZArith Bool Lia Znumtheory.
From Verif Require Import Base Fld FldInst Particle ParticleSpec ParticleThm Phase PhaseSpec Compute ComputeSpec ComputeThm4 ModP Symm Str Masses Parse Text Index TextSpec Tensor Reduce ReduceSpec ReduceThm ReduceWide ReduceInst Consist ConsistSpec ConsistThm Points PointsThm Properties03 Properties04 Properties07.
Import ListNotations.
Open Scope fld_scope.

(* C82: at the reduced point every text - invariants, chains, names of masses, expressions with
   fractions, powers and divisions - has the reduced value or raises the same exception, unless a
   denominator becomes zero *)
Theorem C82_text : forall (K L : Fld) (f : K -> result L) (s : ps K) (s' : ps L) A B n t, place f ->
  Forall (fun p => reproduces p) s -> convert_all f s = Ok s' -> red_masses f A B ->
  red_upto (red_answer f) (compute_text n s A t) (compute_text n s' B t).
Proof. intros K L f s s' A B n t P. exact (all_text f P s s' A B n t). Qed.
Print Assumptions C82_text.
(* the same for expressions with arrays, which is what massive spinors become *)
Theorem C82_wide : forall (K L : Fld) (f : K -> result L) (s : ps K) (s' : ps L) A B n t, place f ->
  Forall (fun p => reproduces p) s -> convert_all f s = Ok s' -> red_masses f A B ->
  red_upto (red_wide f) (compute_wide n s A t) (compute_wide n s' B t).
Proof. intros K L f s s' A B n t P. exact (all_wide f P s s' A B n t). Qed.
Print Assumptions C82_wide.
(* invariants and chains have no denominators *)
Theorem C82_invariants : forall (K L : Fld) (f : K -> result L) (s : ps K) (s' : ps L) e, place f ->
  Forall (fun p => reproduces p) s -> convert_all f s = Ok s' -> red_result (red_val f) (compute s e) (compute s' e).
Proof. intros K L f s s' e P. exact (all_compute f P s s' e). Qed.
Print Assumptions C82_invariants.
(* every leg of the reduced point is massless and carries the reduced spinors *)
Theorem C82_legs : forall (K L : Fld) (f : K -> result L) (s : ps K) (s' : ps L), convert_all f s = Ok s' ->
  Forall (fun p => fresh p) s' /\ Forall2 (red_spinors f) s s'.
Proof. intros K L f s s'. exact (all_spinors f s s'). Qed.
Print Assumptions C82_legs.
(* the conversion succeeds exactly if every entry of every spinor can be converted *)
Theorem C82_defined : forall (K L : Fld) (f : K -> result L) (s : ps K),
  (exists s', convert_all f s = Ok s') <-> Forall (convertible f) s.
Proof. intros K L f s. symmetry. exact (all_ok f s). Qed.
Print Assumptions C82_defined.
(* momentum is conserved at the reduced point *)
Theorem C82_conserved : forall (K L : Fld) (f : K -> result L) (s : ps K) (s' : ps L), place f ->
  Forall (fun p => reproduces p) s -> convert_all f s = Ok s' -> total_mom s = mzero -> total_mom s' = mzero.
Proof. intros K L f s s' P. exact (all_total f P s s'). Qed.
Print Assumptions C82_conserved.
(* to p-adic numbers and back: nothing changes *)
Theorem C82_back : forall (K L : Fld) (f : K -> result L) (g : L -> result K) (s : ps L),
  (forall a, exists x, g a = Ok x /\ f x = Ok a) -> Forall (fun p => fresh p) s ->
  exists s1, convert_all g s = Ok s1 /\ exists s2, convert_all f s1 = Ok s2 /\
    Forall2 (fun p q => r_d q = r_d p /\ l_d q = l_d p /\ r_u q = r_u p /\ l_u q = l_u p /\ r2 q = r2 p /\ r2b q = r2b p /\
                        fm q = fm p /\ fmd q = fmd p /\ spin q = spin p) s s2.
Proof. exact @round_trip. Qed.
Print Assumptions C82_back.
(* rational numbers modulo an odd prime *)
Theorem C82_mod_p : forall (p : Z) (P : prime p) (O : p <> 2%Z), place (reduce p P O) /\
  (forall a, exists x, digit_of p P O a = Ok x /\ reduce p P O x = Ok a).
Proof. intros p P O. split; [exact (reduce_place p P O)|exact (digit_lifts p P O)]. Qed.
Print Assumptions C82_mod_p.

Definition red13 : QF -> result GF13 := reduce 13 (primeb_ok 13 eq_refl) ltac:(discriminate).
Definition exq13 : ps GF13 := get_ok [] (convert_all red13 exq).
Lemma exq_to : convert_all red13 exq = Ok exq13. Proof. fok. Qed.
(* ⟨1|2⟩^2/3+1/[3|4]-s_12m_t, with m_t = 5/2 *)
Definition exq_text : pystr := ([10216; 49; 124; 50; 10217; 94; 50; 47; 51; 43; 49; 47; 91; 51; 124; 52; 93; 45; 115; 95; 49; 50; 42; 109; 95; 116])%Z.
Definition exq_masses : dict (mval QF) := [(lit "m_t", MNum (q 5 2))].
Definition exq13_masses : dict (mval GF13) := [(lit "m_t", MNum (g13 9))].
Definition elt_ok {K : Fld} (r : result (answer K)) : bool := match r with Ok (ANum (VElt x)) => negb (feqb x f0) | _ => false end.
Lemma elt_ok_ex {K : Fld} (r : result (answer K)) : elt_ok r = true -> exists x, r = Ok (ANum (VElt x)) /\ x <> f0.
Proof. destruct r as [[v|[z|y|x|]]|e]; cbn; try discriminate. intros H. apply negb_true_iff, feqb_neq in H. eauto. Qed.
Example C82_ex : place red13 /\ Forall (fun p => reproduces p) exq /\ convert_all red13 exq = Ok exq13 /\ red_masses red13 exq_masses exq13_masses /\
  (exists x, compute_text 3 exq exq_masses exq_text = Ok (ANum (VElt x)) /\ x <> f0) /\
  (exists x, compute_text 3 exq13 exq13_masses exq_text = Ok (ANum (VElt x)) /\ x <> f0).
Proof.
  split; [apply reduce_place|]. split; [apply from_spinors_reproduces|]. split; [exact exq_to|].
  split. { constructor; [split; [reflexivity|]|constructor]. change (red13 (q 5 2) = Ok (g13 9)). fokeq. }
  split; apply elt_ok_ex; vm_compute; reflexivity.
Qed.
(* ⟨1_|3⟩*[2|3^]-⟨1|4⟩/2 *)
Definition exq_wide : pystr := ([10216; 49; 95; 124; 51; 10217; 42; 91; 50; 124; 51; 94; 93; 45; 10216; 49; 124; 52; 10217; 47; 50])%Z.
Definition wide_ok {K : Fld} (r : result (wval K)) : bool := match r with Ok (XNum (VElt x)) => negb (feqb x f0) | _ => false end.
Lemma wide_ok_ex {K : Fld} (r : result (wval K)) : wide_ok r = true -> exists x, r = Ok (XNum (VElt x)) /\ x <> f0.
Proof. destruct r as [[[z|y|x|]|m|l]|e]; cbn; try discriminate. intros H. apply negb_true_iff, feqb_neq in H. eauto. Qed.
Example C82_wide_ex : (exists x, compute_wide 3 exq exq_masses exq_wide = Ok (XNum (VElt x)) /\ x <> f0) /\
  (exists x, compute_wide 3 exq13 exq13_masses exq_wide = Ok (XNum (VElt x)) /\ x <> f0).
Proof. split; apply wide_ok_ex; vm_compute; reflexivity. Qed.
Definition exq4 : ps QF := from_spinors
  [(V2 (q 1 2) (q 3 1), V2 (q 2 1) (q (-5) 3)); (V2 (q 1 2) (q 3 1), V2 (q (-2) 1) (q 5 3)); (V2 (q 7 1) (q 4 9), V2 (q 1 1) (q 6 7)); (V2 (q 7 1) (q 4 9), V2 (q (-1) 1) (q (-6) 7))].
Example C82_conserved_ex : Forall (fun p => reproduces p) exq4 /\ (exists s', convert_all red13 exq4 = Ok s') /\ total_mom exq4 = mzero.
Proof.
  split; [apply from_spinors_reproduces|]. split; [exists (get_ok [] (convert_all red13 exq4)); fok|fcomp].
Qed.
Example C82_back_ex : (forall a, exists x, digit_of 13 (primeb_ok 13 eq_refl) ltac:(discriminate) a = Ok x /\ red13 x = Ok a) /\ Forall (fun p => fresh p) ex6.
Proof. split; [apply digit_lifts|apply from_spinors_fresh]. Qed.
(* the exception is needed: 1/(13⟨1|2⟩) is a number, but not modulo 13 *)
Definition exq_text13 : pystr := ([49; 47; 40; 49; 51; 42; 10216; 49; 124; 50; 10217; 41])%Z.
Theorem C82_same_refuted : exists (s : ps QF) (s' : ps GF13) t x, place red13 /\ Forall (fun p => reproduces p) s /\ convert_all red13 s = Ok s' /\
  compute_text 3 s [] t = Ok (ANum (VElt x)) /\ compute_text 3 s' [] t = Err ZeroDivisionError.
Proof.
  assert (E : exists x, compute_text 3 exq [] exq_text13 = Ok (ANum (VElt x)) /\ x <> f0) by (apply elt_ok_ex; vm_compute; reflexivity).
  destruct E as (x & E & _). exists exq, exq13, exq_text13, x. split; [apply reduce_place|]. split; [apply from_spinors_reproduces|].
  split; [exact exq_to|]. split; [exact E|ferr].
Qed.
Print Assumptions C82_same_refuted.
(* finding: the functions rebuild the momentum from the spinors, a massive leg loses its mass *)
Theorem C82_massive_refuted : exists (s : ps GF13) (x : GF13), sound s /\ scalar (compute s (IM 1)) = Ok x /\ x <> 0 /\
  rbind (convert_all (fun y : GF13 => Ok y) s) (fun s' => scalar (compute s' (IM 1))) = Ok 0.
Proof.
  exists [ex_massive], (get_ok (0 : GF13) (scalar (compute [ex_massive] (IM 1)))). split; [|split; [fok|split; [fneq|fokeq]]].
  apply Forall_cons; [apply (step_r2 Asymmetric), new_spinors_cons|apply Forall_nil].
Qed.
Print Assumptions C82_massive_refuted.

(* C83: check_consistency returns for every string of compute, and keeps quiet for exactly the accepted ones *)
Theorem C83_verdict : forall e t, shows e t ->
  (exists r, check_consistency t = Ok r) /\ (check_consistency t = Ok None <-> accepted e t).
Proof. exact checked_iff. Qed.
Print Assumptions C83_verdict.
(* a chain with unicode brackets that it complains about is one that compute rejects *)
Theorem C83_rejected : forall (K : Fld) (s : ps K) A f o a es t d c, (0 <= a)%Z -> (0 <= d)%Z -> shows_entries es t -> o <> OLt -> c <> CGt ->
  check_consistency (opening o ++ dec a ++ lit "|" ++ t ++ lit "|" ++ dec d ++ closing c) <> Ok None ->
  compute_text (S f) s A (opening o ++ dec a ++ lit "|" ++ t ++ lit "|" ++ dec d ++ closing c) = Err SyntaxError.
Proof. intros K s. exact (chain_refused s). Qed.
Print Assumptions C83_rejected.
(* it raises exactly for texts that are too short, and then so does set *)
Theorem C83_raises : forall t, (exists e, check_consistency t = Err e) <-> too_short t.
Proof. exact raises_short. Qed.
Print Assumptions C83_raises.
(* [1|2+3|4⟩ and [1|2+3|4] *)
Definition chain_good : pystr := ([91; 49; 124; 50; 43; 51; 124; 52; 10217])%Z.
Definition chain_bad : pystr := ([91; 49; 124; 50; 43; 51; 124; 52; 93])%Z.
Lemma chain_shown : shows_entries [(2, [(true, 3)])]%Z (lit "2+3").
Proof. apply last_entry. apply (TextSpec.bare (2, [(true, 3)])%Z). split; [discriminate|]. constructor; [discriminate|constructor]. Qed.
Example C83_ex : shows (IChain OSq 1 [(2, [(true, 3)])] 4 CAng)%Z chain_good /\ accepted (IChain OSq 1 [(2, [(true, 3)])] 4 CAng)%Z chain_good /\
  shows (IChain OSq 1 [(2, [(true, 3)])] 4 CSq)%Z chain_bad /\ check_consistency chain_bad = Ok (Some NoClosing).
Proof.
  split; [apply (w_chain OSq 1 [(2, [(true, 3)])]%Z (lit "2+3") 4 CAng); try lia; exact chain_shown|].
  split; [apply (acc_chain OSq 1 [(2, [(true, 3)])]%Z (lit "2+3") 4 CAng); try lia; [exact chain_shown|discriminate|reflexivity]|].
  split; [apply (w_chain OSq 1 [(2, [(true, 3)])]%Z (lit "2+3") 4 CSq); try lia; exact chain_shown|reflexivity].
Qed.
(* finding: tr5_1234 is a string of compute, with its underscore, and still it is said to lack one: the
   check looks at the character behind the underscore (particles.py:506) *)
Theorem C83_tr5_refuted : exists e t, shows e t /\ nth_error t 3 = Some 95%Z /\ check_consistency t = Ok (Some NoUnderscore) /\
  exists v, scalar (rbind (compute_text 1 ex6 [] t) (fun a => match a with AVal v => Ok v | _ => Err OtherException end)) = Ok v /\ v <> 0.
Proof.
  exists (ITr5 (1, []) (2, []) (3, []) (4, []))%Z, (lit "tr5_1234"). split; [|split; [reflexivity|split; [reflexivity|]]].
  - apply (w_tr5 1 2 3 4)%Z. repeat constructor; discriminate.
  - exists (get_ok (0 : GF13) (scalar (rbind (compute_text 1 ex6 [] (lit "tr5_1234")) (fun a => match a with AVal v => Ok v | _ => Err OtherException end)))).
    split; [fok|fneq].
Qed.
Print Assumptions C83_tr5_refuted.
(* finding: a single letter is no string of compute, and instead of a complaint there is an IndexError *)
Theorem C83_letter_refuted : exists t, check_consistency t = Err IndexError /\ classify t = TExpr.
Proof. exists (lit "s"). split; reflexivity. Qed.
Print Assumptions C83_letter_refuted.

(* C84: a != b never raises and is true exactly if the points differ in length or in a momentum *)
Theorem C84_not_equal : forall (K : Fld) (s s' : ps K), ps_ne s s' = true <-> ~ Forall2 (fun p q => r2 p = r2 q) s s'.
Proof. intros K. exact ne_iff. Qed.
Print Assumptions C84_not_equal.
(* for points with the same number of legs it is the negation of == *)
Theorem C84_negation : forall (K : Fld) (s s' : ps K), length s = length s' -> seq_eq p_eqb s s' = Ok (negb (ps_ne s s')).
Proof. intros K. exact ne_eq. Qed.
Print Assumptions C84_negation.
(* finding: a point and the same point with one more leg are both equal and unequal *)
Theorem C84_both_refuted : exists s s' : ps GF13, seq_eq p_eqb s s' = Ok true /\ ps_ne s s' = true.
Proof. exists (firstn 5 ex6), ex6. split; vm_compute; reflexivity. Qed.
Print Assumptions C84_both_refuted.
(* massless points can be hashed; what is hashed determines the momenta, and the spinors determine it *)
Theorem C84_hash : forall (K : Fld) (s s' : ps K), Forall (fun p => fresh p) s -> Forall (fun p => fresh p) s' ->
  ps_hash s = ps_hash s' -> ps_ne s s' = false.
Proof. intros K. exact hash_points. Qed.
Print Assumptions C84_hash.
Theorem C84_hash_same : forall (K : Fld) (s s' : ps K), Forall (fun p => fresh p) s ->
  Forall2 (fun p q => r_d p = r_d q /\ l_d p = l_d q /\ lsq q = 0) s s' -> exists h, ps_hash s = Ok h /\ ps_hash s' = Ok h.
Proof. intros K. exact hash_same. Qed.
Print Assumptions C84_hash_same.
(* hashing raises AttributeError exactly when a leg with vanishing mass has lost one of its spinors *)
Theorem C84_hash_raises : forall (K : Fld) (s : ps K), ps_hash s = Err AttributeError <-> exists p, In p s /\ lsq p = 0 /\ (r_d p = None \/ l_d p = None).
Proof.
  intros K s. split.
  - intros E. destruct (hash_raises s) as [(h & E')|(_ & H)]; [rewrite E' in E; discriminate E|exact H].
  - intros (p & I & Z & H). exact (hash_err s p I Z H).
Qed.
Print Assumptions C84_hash_raises.
Example C84_hash_ex : exists s : ps GF13, ps_hash s = Err AttributeError /\ length s = 6%nat.
Proof. exists (map (set_rd None) ex6). split; reflexivity. Qed.
Example C84_ex : Forall (fun p => fresh p) ex6 /\ length ex6 = length (rev ex6) /\ ps_ne ex6 (rev ex6) = true /\ ps_ne ex6 ex6 = false /\ is_ok (ps_hash ex6) = true.
Proof. split; [apply from_spinors_fresh|]. split; [reflexivity|]. split; [vm_compute; reflexivity|]. split; vm_compute; reflexivity. Qed.
