(* C40 (pairs and varieties), C41 and C54: setting two invariants and constructing points
   on varieties. *)
From Coq Require Import List ZArith Bool Lia.
From Verif Require Import Base Fld Particle ParticleSpec ParticleThm Index IndexThm Phase PhaseSpec PhaseThm Arcs ArcsSpec ArcsThm Compute ComputeSpec ComputeThm FldInst SymmThm
  Tr5 SetOne SetSpec SetThm SetThm2 SetPair SetPairSpec SetPairThm Variety VarietyThm Properties03 Properties04 Properties07.
Import ListNotations.
Open Scope fld_scope.

(* nothing is known about the pairs that are not modelled; for examples: they raise *)
Definition no_other {K : Fld} : target -> K -> target -> K -> QM (K := K) pair_ret := fun _ _ _ _ => raise NotImplementedError.
Definition pair6 (t1 : target) (v1 : Z) (t2 : target) (v2 : Z) : ps GF13 * result unit := set_pair Symmetric ns no_other 10 t1 (g13 v1) t2 (g13 v2) ex6.
Definition eqv (r : result GF13) (x : GF13) : bool := match r with Ok y => feqb y x | _ => false end.
Lemma eqv_ok r x : eqv r x = true -> r = Ok x.
Proof. unfold eqv. destruct r as [y|]; [|discriminate]. intros H. apply (feqb_ok GF13) in H. congruence. Qed.
Lemma eqv_no r x : eqv r x = false -> r <> Ok x.
Proof. intros H ->. unfold eqv in H. rewrite (feqb_refl (K := GF13)) in H. discriminate. Qed.

(* ---- C40: a call of _set_pair that returns, whatever the solvers do ---- *)
Theorem C40_pair_returns :
  forall (K : Fld) (inner : QM (K := K) pair_ret) (value : ps K -> target -> result K) (t1 : target) (v1 : K) (t2 : target) (v2 : K) (s s' : ps K),
  pair_checked inner value t1 v1 t2 v2 s = (s', Ok tt) ->
  exists ret, inner s = (s', Ok ret) /\ on_shell_point s' /\
    match ret with
    | PNone => plus_minus (value s' t1) v1 /\ plus_minus (value s' t2) v2
    | PSwitch u1 u2 => plus_minus (value s' u1) v1 /\ plus_minus (value s' u2) v2
    | PNotImplemented => False
    end.
Proof. intros K inner value t1 v1 t2 v2 s s' H. exact (pair_checked_inv inner value t1 v1 t2 v2 s s' H). Qed.
Print Assumptions C40_pair_returns.
(* the two invariants that were asked for, unless the solver returned other ones *)
Theorem C40_pair :
  forall (K : Fld) (cv : convention) (so : list Z -> list Z) (other : target -> K -> target -> K -> QM (K := K) pair_ret) (fuel : nat)
    (t1 : target) (v1 : K) (t2 : target) (v2 : K) (s s' : ps K),
  set_pair cv so other fuel t1 v1 t2 v2 s = (s', Ok tt) ->
  (forall u1 u2, snd (set_pair_inner cv so other fuel t1 v1 t2 v2 s) <> Ok (PSwitch u1 u2)) ->
  total_mom s' = mzero /\ Forall (fun p => lsq p = 0) s' /\ plus_minus (c_target s' t1) v1 /\ plus_minus (c_target s' t2) v2.
Proof.
  intros K cv so other fuel t1 v1 t2 v2 s s' H NS. apply pair_checked_inv in H as (rt & E & [A B] & C). rewrite E in NS. cbn [snd] in NS.
  destruct rt as [|u1 u2|]; [|exfalso; apply (NS u1 u2); reflexivity|contradiction]. tauto.
Qed.
Print Assumptions C40_pair.
Example C40_pair_ex :
  snd (pair6 (TInv (IA2 1 2)) 5 (TInv (IS [1; 2; 3]%Z)) 7) = Ok tt /\ snd (pair6 (TInv (IS [1; 2; 3]%Z)) 5 (TInv (IS [2; 3; 4]%Z)) 7) = Ok tt /\
  snd (pair6 (three true 4 [1; 2]%Z 3) 5 (TInv (IS [1; 2; 3]%Z)) 7) = Ok tt /\ snd (pair6 (TInv (IA2 1 2)) 5 (TInv (IDelta [[1; 2]; [3; 4]; [5; 6]]%Z)) 7) = Ok tt /\
  eqv (c_target (fst (pair6 (TInv (IA2 1 2)) 5 (TInv (IS [1; 2; 3]%Z)) 7)) (TInv (IS [1; 2; 3]%Z))) (g13 7) = true.
Proof. repeat (split; [vm_compute; reflexivity|]). vm_compute. reflexivity. Qed.
(* the solver for <i|j+k|i] and s_ijk returns other strings and mixes up the targets: with
   equal targets the call returns and <1|2+3|1] has neither the value nor its opposite *)
Theorem C40_pair_switch_refuted :
  exists (s : ps GF13) (t1 : target) (v : GF13) (t2 : target), Forall (fun p => fresh p) s /\ total_mom s = mzero /\
    snd (set_pair Symmetric ns no_other 10 t1 v t2 v s) = Ok tt /\
    ~ plus_minus (c_target (fst (set_pair Symmetric ns no_other 10 t1 v t2 v s)) t1) v.
Proof.
  exists ex6, (three true 1 [2; 3]%Z 1), (g13 5), (TInv (IS [1; 2; 3]%Z)).
  split; [apply ex6_fresh|]. split; [apply ex6_total|]. split; [vm_compute; reflexivity|].
  intros [H|H]; revert H; apply eqv_no; vm_compute; reflexivity.
Qed.
Print Assumptions C40_pair_switch_refuted.
(* setting s_12 and s_13 at four legs never ends, whatever depth of recursion is allowed *)
Theorem C40_pair_endless :
  forall (K : Fld) (cv : convention) (so : list Z -> list Z) (other : target -> K -> target -> K -> QM (K := K) pair_ret) (v1 v2 : K), set_like so ->
  forall (fuel : nat) (s : ps K), length s = 4%nat ->
  set_pair cv so other fuel (TInv (IS [1; 2]%Z)) v1 (TInv (IS [1; 3]%Z)) v2 s = (s, Err RecursionError).
Proof. intros K cv so other v1 v2 SO fuel s L. exact (pair_S_S_endless cv so other v1 v2 SO fuel s L). Qed.
Print Assumptions C40_pair_endless.

(* ---- C40: variety ---- *)
Theorem C40_variety :
  forall (K : Fld) (hard singular : list target -> list K -> QM (K := K) unit) (value : ps K -> target -> result K) (char0 try_s : bool)
    (ts : list target) (vs : list K) (s s' : ps K),
  variety hard singular value char0 try_s ts vs s = (s', Ok tt) ->
  length ts = length vs /\ (total_mom s' = mzero /\ Forall (fun p => lsq p = 0) s') /\
  (if char0 then Forall2 (fun t v => value s' t = Ok v \/ value s' t = Ok (- v)) ts vs else Forall (fun t => value s' t = Ok 0) ts).
Proof. intros K hard singular value char0 try_s ts vs s s' H. exact (variety_returns hard singular value char0 try_s ts vs s s' H). Qed.
Print Assumptions C40_variety.
Definition hard6 : list target -> list GF13 -> QM (K := GF13) unit :=
  hardcoded (fun t v => set_ Symmetric ns t v true 1) (set_pair Symmetric ns no_other 10).
Definition variety6 (char0 : bool) (ts : list target) (vs : list Z) : result unit :=
  snd (variety hard6 (fun _ _ => raise NotImplementedError) (fun s t => c_target s t) char0 true ts (map g13 vs) ex6).
Example C40_variety_ex :
  variety6 false [TInv (IS [1; 2; 3]%Z)] [0]%Z = Ok tt /\ variety6 true [TInv (IS [1; 2; 3]%Z)] [5]%Z = Ok tt /\
  variety6 false [TInv (IA2 1 2); TInv (IS [1; 2; 3]%Z)] [0; 0]%Z = Ok tt /\ variety6 false [TInv (IA2 1 2)] [0; 0]%Z = Err AssertionError.
Proof. repeat (split; [vm_compute; reflexivity|]). vm_compute. reflexivity. Qed.
(* in a finite field a target other than 0 is refused although the setter reaches it *)
Theorem C40_variety_nonzero_refuted :
  exists (s : ps GF13) (t : target) (v : GF13), Forall (fun p => fresh p) s /\ total_mom s = mzero /\
    snd (hard6 [t] [v] s) = Ok tt /\ c_target (fst (hard6 [t] [v] s)) t = Ok v /\
    snd (variety hard6 (fun _ _ => raise NotImplementedError) (fun s t => c_target s t) false true [t] [v] s) = Err MyException.
Proof.
  exists ex6, (TInv (IS [1; 2; 3]%Z)), (g13 5). split; [apply ex6_fresh|]. split; [apply ex6_total|]. split; [vm_compute; reflexivity|].
  split; [apply eqv_ok; vm_compute; reflexivity|vm_compute; reflexivity].
Qed.
Print Assumptions C40_variety_nonzero_refuted.

(* ---- C41 ---- *)
(* any setter that fails without changing the number of particles *)
Theorem C41_fallback :
  forall (K : Fld) (hard singular : list target -> list K -> QM (K := K) unit) (value : ps K -> target -> result K) (char0 : bool)
    (ts : list target) (vs : list K) (s s1 : ps K) (e : exn), length ts = length vs ->
  hard ts vs s = (s1, Err e) -> e <> Diverges -> length s1 = length s ->
  (forall s2 e2, singular ts vs s = (s2, Err e2) -> variety hard singular value char0 true ts vs s = (s2, Err e2)) /\
  (forall s2, singular ts vs s = (s2, Ok tt) ->
     fst (variety hard singular value char0 true ts vs s) = s2 /\
     (variety hard singular value char0 true ts vs s = (s2, Ok tt) <-> on_shell_point s2 /\ good_values char0 value s2 ts vs)).
Proof. intros K hard singular value char0 ts vs s s1 e L E ND LL. exact (variety_fallback hard singular value char0 ts vs s s1 e L E ND LL). Qed.
Print Assumptions C41_fallback.
(* the setters of the library: they never change the number of particles *)
Theorem C41_library :
  forall (K : Fld) (cv : convention) (so : list Z -> list Z) (other : target -> K -> target -> K -> QM (K := K) pair_ret) (fuel : nat)
    (singular : list target -> list K -> QM (K := K) unit) (value : ps K -> target -> result K) (char0 : bool)
    (ts : list target) (vs : list K) (s s1 : ps K) (e : exn),
  (forall t x t' x', keeps_length (other t x t' x')) -> length ts = length vs ->
  let hard := hardcoded (fun t v => set_ cv so t v true 1) (set_pair cv so other fuel) in
  hard ts vs s = (s1, Err e) -> e <> Diverges ->
  (forall s2 e2, singular ts vs s = (s2, Err e2) -> variety hard singular value char0 true ts vs s = (s2, Err e2)) /\
  (forall s2, singular ts vs s = (s2, Ok tt) ->
     fst (variety hard singular value char0 true ts vs s) = s2 /\
     (variety hard singular value char0 true ts vs s = (s2, Ok tt) <-> on_shell_point s2 /\ good_values char0 value s2 ts vs)).
Proof.
  intros K cv so other fuel singular value char0 ts vs s s1 e KL L hard E ND. apply (variety_fallback hard singular value char0 ts vs s s1 e L E ND).
  pose proof (kl_hard _ _ ts vs (fun t x => kl_set cv so t x true 1) (fun t x t' x' => kl_set_pair cv so other fuel t x t' x' KL) s) as H.
  change (length (fst (hard ts vs s)) = length s) in H. rewrite E in H. exact H.
Qed.
Print Assumptions C41_library.
(* the hard-coded setter fails after it changed leg 2, and the fallback sees the old leg 2 *)
Example C41_ex : let s := firstn 3 ex6 in let t := TInv (IA2 1 2) in
  snd (hard6 [t] [g13 5] s) = Err IndexError /\ c_A2 (fst (hard6 [t] [g13 5] s)) 1 2 <> c_A2 s 1 2 /\
  eqv (c_A2 (fst (variety hard6 (fun _ _ => ret tt) (fun s t => c_target s t) false true [t] [g13 5] s)) 1 2) (get_ok (0 : GF13) (c_A2 s 1 2)) = true.
Proof.
  cbv zeta. split; [vm_compute; reflexivity|]. split; [|vm_compute; reflexivity].
  intros H. assert (F : eqv (c_A2 (fst (hard6 [TInv (IA2 1 2)] [g13 5] (firstn 3 ex6))) 1 2) (get_ok (0 : GF13) (c_A2 (firstn 3 ex6) 1 2)) = false) by (vm_compute; reflexivity).
  rewrite H in F. vm_compute in F. discriminate.
Qed.
(* without the fallback the failure is ignored and only the final checks decide *)
Theorem C41_no_fallback :
  forall (K : Fld) (hard singular : list target -> list K -> QM (K := K) unit) (value : ps K -> target -> result K) (char0 : bool)
    (ts : list target) (vs : list K) (s s1 : ps K) (e : exn), length ts = length vs ->
  hard ts vs s = (s1, Err e) -> e <> Diverges ->
  fst (variety hard singular value char0 false ts vs s) = s1 /\
  (variety hard singular value char0 false ts vs s = (s1, Ok tt) <-> on_shell_point s1 /\ good_values char0 value s1 ts vs).
Proof. intros K hard singular value char0 ts vs s s1 e L E ND. exact (variety_swallow hard singular value char0 ts vs s s1 e L E ND). Qed.
Print Assumptions C41_no_fallback.

(* ---- C54 ---- *)
(* at least two legs are free; two an a b is <a|b> if an is true and [a|b] otherwise *)
Theorem C54_two_free :
  forall (K : Fld) (cv : convention) (so : list Z -> list Z) (other : target -> K -> target -> K -> QM (K := K) pair_ret) (fuel : nat)
    (an1 : bool) (a b : Z) (v1 : K) (an2 : bool) (c d : Z) (v2 : K) (s : ps K) (p q : Z) (rest : list Z), set_like so -> Forall (fun x => fresh x) s ->
  legs_of s [a; b; c; d] -> a <> b -> c <> d -> ~ same_bracket an1 a b an2 c d ->
  free_legs (length s) [a; b; c; d] = p :: q :: rest ->
  let x1 := lead (Bool.eqb an1 an2) a b c d in let x2 := lead (Bool.eqb an1 an2) c d a b in
  (first_of an1 s x1 <> Some 0 -> first_of an2 s x2 <> Some 0 -> nz (c_S2 s p q) ->
     exists s', set_pair cv so other (S fuel) (two an1 a b) v1 (two an2 c d) v2 s = (s', Ok tt) /\
       made2 s s' (two an1 a b) v1 (two an2 c d) v2 [a + b - x1; c + d - x2; p; q]%Z /\ keeps_l s s' p /\ keeps_l s s' q) /\
  (first_of an1 s x1 = Some 0 \/ first_of an2 s x2 = Some 0 \/ c_S2 s p q = Ok 0 ->
     snd (set_pair cv so other (S fuel) (two an1 a b) v1 (two an2 c d) v2 s) = Err ZeroDivisionError).
Proof. intros. eapply pair_two_free; eassumption. Qed.
Print Assumptions C54_two_free.
Ltac fo := match goal with |- first_of ?an ?s ?k <> _ => apply (bool_neq (fun r => match r with Some x => feqb x (0 : GF13) | None => false end)); vm_compute; reflexivity end.
Example C54_ex : legs_of ex6 [1; 2; 2; 3]%Z /\ ~ same_bracket true 1 2 true 2 3 /\ free_legs (length ex6) [1; 2; 2; 3]%Z = [4; 5; 6]%Z /\
  lead true 1 2 2 3 = 2%Z /\ lead true 2 3 1 2 = 2%Z /\ first_of true ex6 2 <> Some 0 /\ nz (c_S2 ex6 4 5) /\
  snd (pair6 (two true 1 2) 5 (two true 2 3) 7) = Ok tt /\ snd (pair6 (two true 1 2) 5 (two false 1 2) 7) = Ok tt.
Proof.
  split; [legs6|]. split; [unfold same_bracket; lia|]. do 3 (split; [reflexivity|]). split; [fo|]. split; [nzt|]. split; vm_compute; reflexivity.
Qed.
(* any number of free legs: if the call returns and the legs used to restore momentum
   conservation are not those of the other bracket, both values are exact *)
Theorem C54_returns :
  forall (K : Fld) (cv : convention) (so : list Z -> list Z) (other : target -> K -> target -> K -> QM (K := K) pair_ret) (fuel : nat)
    (an1 : bool) (a b : Z) (v1 : K) (an2 : bool) (c d : Z) (v2 : K) (s s' : ps K), set_like so -> Forall (fun x => fresh x) s ->
  legs_of s [a; b; c; d] -> a <> b -> c <> d -> ~ same_bracket an1 a b an2 c d ->
  undisturbed (length s) an1 a b an2 c d ->
  set_pair cv so other (S fuel) (two an1 a b) v1 (two an2 c d) v2 s = (s', Ok tt) ->
  c_target s' (two an1 a b) = Ok v1 /\ c_target s' (two an2 c d) = Ok v2 /\ on_shell_point s' /\ Forall (fun x => fresh x) s'.
Proof. intros K cv so other fuel an1 a b v1 an2 c d v2 s s' SO F L N1 N2 NS UN E. exact (pair_two_returns cv so other fuel an1 a b v1 an2 c d v2 s s' SO F L N1 N2 NS UN E). Qed.
Print Assumptions C54_returns.
(* a four-leg point *)
Definition ex4 : ps GF13 := from_spinors
  [(V2 (g13 1) (g13 7), V2 (g13 3) (g13 2)); (V2 (g13 11) (g13 2), V2 (g13 6) (g13 11)); (V2 (g13 6) (g13 2), V2 (g13 11) (g13 4));
   (V2 (g13 6) (g13 1), V2 (g13 10) (g13 8))].
Definition pair4 (t1 : target) (v1 : Z) (t2 : target) (v2 : Z) : ps GF13 * result unit := set_pair Symmetric ns no_other 10 t1 (g13 v1) t2 (g13 v2) ex4.
Example C54_returns_ex : undisturbed (length ex4) true 1 2 true 2 3 /\ undisturbed (length (firstn 5 ex6)) true 1 2 false 2 3 /\
  undisturbed (length ex4) false 1 2 true 3 4 /\ snd (pair4 (two true 1 2) 5 (two true 2 3) 7) = Ok tt.
Proof.
  split; [cbn; auto|]. split; [cbn; lia|]. split; [|vm_compute; reflexivity]. cbn. split; [reflexivity|]. right. lia.
Qed.
(* four legs, <12> and <34>: momentum conservation is restored with legs 1 and 2, which
   changes <12>; the final check accepts the wrong sign *)
Theorem C54_sign_refuted :
  exists (s : ps GF13) (v1 v2 : GF13), Forall (fun p => fresh p) s /\ total_mom s = mzero /\
    snd (set_pair Symmetric ns no_other 10 (two true 1 2) v1 (two true 3 4) v2 s) = Ok tt /\
    c_target (fst (set_pair Symmetric ns no_other 10 (two true 1 2) v1 (two true 3 4) v2 s)) (two true 1 2) = Ok (- v1) /\ - v1 <> v1.
Proof.
  exists ex4, (g13 1), (g13 2). split; [apply from_spinors_fresh|]. split; [apply meqb_ok; vm_compute; reflexivity|]. split; [vm_compute; reflexivity|].
  split; [apply eqv_ok; vm_compute; reflexivity|]. fneq.
Qed.
Print Assumptions C54_sign_refuted.
(* a bracket and itself, in either order of the labels *)
Theorem C54_same_error :
  forall (K : Fld) (cv : convention) (so : list Z -> list Z) (other : target -> K -> target -> K -> QM (K := K) pair_ret) (fuel : nat)
    (an : bool) (a b : Z) (v1 v2 : K) (c d : Z) (s : ps K), a <> b -> ((c = a /\ d = b) \/ (c = b /\ d = a)) ->
  set_pair cv so other (S fuel) (two an a b) v1 (two an c d) v2 s = (s, Err OtherException).
Proof. intros K cv so other fuel an a b v1 v2 c d s N H. exact (pair_two_same cv so other fuel an a b v1 v2 c d s N H). Qed.
Print Assumptions C54_same_error.
