(* Tightening of C68: two three-brackets end with conserved momentum or with an exception. *)
From Coq Require Import List ZArith Bool Lia.
From Verif Require Import Base Fld FldInst Particle ParticleSpec Index Phase PhaseSpec Compute SetOne SetSpec SetPair SetPairSpec SetPairMore SetMoreSpec Restore3Thm Properties20.
Import ListNotations.

(* C68: when no two spinors can be changed an exception is raised; without an exception momentum is conserved *)
Theorem C68_or_raises : forall (K : Fld) (cv : convention) (so : list Z -> list Z) (s s' : ps K) (an0 : bool) (s0 : Z) (m0 : list Z) (e0 : Z) (an1 : bool) (s1 : Z) (m1 : list Z) (e1 : Z) r,
  set_like so -> Forall (fun x => fresh x) s -> good_three (length s) s0 m0 e0 -> good_three (length s) s1 m1 e1 ->
  restore3 cv so (an0, s0, m0, e0) (an1, s1, m1, e1) s = (s', r) ->
  (r = Ok tt /\ total_mom s' = mzero /\ length s' = length s) \/
  (s' = s /\ (r = Err ZeroDivisionError \/ r = Err MyException /\ how3 so (length s) (an0, s0, m0, e0) (an1, s1, m1, e1) = Ok None)).
Proof. intros K cv so s s' an0 s0 m0 e0 an1 s1 m1 e1 r. exact (restore_or_raise cv so s s' an0 s0 m0 e0 an1 s1 m1 e1 r). Qed.
Print Assumptions C68_or_raises.
Example C68_or_raises_ex : length m6 = 6%nat /\ good_three 6 1 [2]%Z 3 /\ good_three 6 4 [2]%Z 5 /\
  snd (restore3 Symmetric ns20 (true, 1, [2], 3)%Z (false, 4, [2], 5)%Z m6) = Err MyException /\ snd (restore3 Symmetric ns20 (true, 1, [2; 3], 4)%Z (true, 4, [2; 3], 5)%Z m6) = Ok tt.
Proof.
  split; [reflexivity|]. split; [|split; [|split; vm_compute; reflexivity]]; (split; [discriminate|]; split; [repeat constructor; cbn; lia|]; split; [intros k Hk; cbn in Hk; lia|lia]).
Qed.
