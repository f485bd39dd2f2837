(* Two three-brackets: momentum is conserved in the end, or an exception is raised. *)
From Coq Require Import List ZArith Bool Lia.
From Verif Require Import Base Fld Particle ParticleSpec ParticleThm Index Phase PhaseSpec PhaseThm Compute SetOne SetSpec SetThm SetThm2 SetPair SetPairSpec SetPairThm SetPairMore SetMoreSpec SetMoreThm SetMoreThm2 SetMoreThm3 SetMoreThm4 SetMoreThm5.
Import ListNotations.
Open Scope fld_scope.
Theorem restore_or_raise {K : Fld} cv so (s s' : ps K) an0 (s0 : Z) m0 (e0 : Z) an1 (s1 : Z) m1 (e1 : Z) r :
  set_like so -> Forall (fun x => fresh x) s -> good_three (length s) s0 m0 e0 -> good_three (length s) s1 m1 e1 ->
  restore3 cv so (an0, s0, m0, e0) (an1, s1, m1, e1) s = (s', r) ->
  (r = Ok tt /\ total_mom s' = mzero /\ length s' = length s) \/ (s' = s /\ (r = Err ZeroDivisionError \/ r = Err MyException /\ how3 so (length s) (an0, s0, m0, e0) (an1, s1, m1, e1) = Ok None)).
Proof.
  intros SO F G0 G1 E. unfold restore3 in E. rewrite bind_get in E.
  assert (T : exists h, how3 so (length s) (an0, s0, m0, e0) (an1, s1, m1, e1) = Ok h).
  { unfold how3. rewrite !full3_ok by (first [apply G0|apply G1]). cbn [rbind all3]. rewrite (complementary_free so _ _ SO) by discriminate. cbn [rbind]. eexists. reflexivity. }
  destruct T as [h T]. rewrite (bind_lift _ _ _ _ T) in E. destruct h as [[[p q] axis]|].
  - cbn [fix_how] in E. destruct (how3_sound so (length s) an0 s0 m0 e0 an1 s1 m1 e1 p q axis SO) as (_ & _ & CH & _); [|exact T|].
    { destruct G0 as (_ & _ & _ & A0 & B0), G1 as (_ & _ & _ & A1 & B1). intros k [<-|[<-|[<-|[<-|[]]]]]; assumption. }
    destruct (fixm_moved cv s (rs s) (ls s) p q axis (view_of s F) CH) as [H|(t & r' & l' & H & _ & [L _] & M & _)]; unfold fix_how in E; rewrite H in E; injection E as <- <-; [right|left]; auto.
  - injection E as <- <-. right. auto.
Qed.
