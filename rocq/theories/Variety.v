(* Model of Particles.variety (lips/particles_variety.py). *)
From Coq Require Import List ZArith Bool.
From Verif Require Import Base Fld Particle Index Phase Compute SetOne SetPair.
Import ListNotations.

Section Variety.
Context {K : Fld}.
Open Scope fld_scope.
Open Scope mon_scope.

(* particles_variety.py:47-48: for i, p in enumerate(backup): self[i + 1] = p *)
Fixpoint put_back (i : Z) (backup : ps K) : QM (K := K) unit :=
  match backup with
  | [] => ret tt
  | p :: t => s <- get ;; s' <- lift (setitem s i p) ;; modify (fun _ => s') ;; put_back (i + 1)%Z t
  end.

(* particles_variety.py:38-44; [one] and [pair] are self._set and self._set_pair.
   Simplification: the p-adic numbers, whose targets are random numbers of the given
   valuations (particles_variety.py:33-35), are left out. *)
Definition hardcoded (one : target -> K -> QM (K := K) unit) (pair : target -> K -> target -> K -> QM (K := K) unit)
    (ts : list target) (vs : list K) : QM unit :=
  match ts, vs with
  | [t], [v] => one t v
  | [t1; t2], [v1; v2] => pair t1 v1 t2 v2
  | _, _ => raise NotImplementedError
  end.

(* particles_variety.py:24-73.  [char0]: field.characteristic == 0; [value] is
   self.compute; [singular] is self._singular_variety (particles_variety.py:51, and
   algebraic_geometry/particles_singular_variety.py:15-37), which may do anything. *)
Definition values_ok (char0 : bool) (xs vs : list K) : bool :=
  if char0 then forallb (fun xv => up_to_sign (fst xv) (snd xv)) (combine xs vs)
  else forallb (fun x => feqb x 0) xs.
(* except Exception, particles_variety.py:45: everything but an endless loop *)
Definition caught_all (e : exn) : bool := match e with Diverges => false | _ => true end.
(* particles_variety.py:24-73 *)
Definition variety (hard : list target -> list K -> QM (K := K) unit) (singular : list target -> list K -> QM (K := K) unit)
    (value : ps K -> target -> result K) (char0 try_singular : bool) (ts : list target) (vs : list K) : QM unit :=
  if negb (Nat.eqb (length ts) (length vs)) then raise AssertionError else
  backup <- get ;;
  try_except (hard ts vs) caught_all
    (if try_singular then put_back 1 backup ;; singular ts vs else ret tt) ;;
  s <- get ;;
  if negb (mom_cons_check s) then raise MyException
  else if negb (onshell_check s) then raise MyException
  else xs <- lift (rmapM (value s) ts) ;;
       if values_ok char0 xs vs then ret tt else raise MyException.
End Variety.
