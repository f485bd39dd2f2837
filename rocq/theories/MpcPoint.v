(* Points with legs that are randomised over the complex numbers. *)
From Coq Require Import List ZArith Bool.
From Verif Require Import Base Fld Particle Index Phase MpcRandom.
Import ListNotations.

Section Point.
Context {K : Fld} (X : Cx K).
(* Particle(real_momentum=..., field=mpc), particle.py:39-42 and 304-306; None if the loop of
   randomise_mpc has not ended *)
Definition mpc_leg (cv : convention) (rm : bool) (ts : list turn) : option (result (particle K)) :=
  match randomise_mpc X cv rm ts blank with
  | None => None
  | Some (p, Ok _) => Some (Ok p)
  | Some (_, Err e) => Some (Err e)
  end.
(* the legs one after the other, particles.py:52-54 *)
Fixpoint mpc_legs (cv : convention) (rm : bool) (tss : list (list turn)) : option (result (ps K)) :=
  match tss with
  | [] => Some (Ok [])
  | ts :: tss' =>
      match mpc_leg cv rm ts with
      | None => None
      | Some (Err e) => Some (Err e)
      | Some (Ok p) =>
          match mpc_legs cv rm tss' with
          | None => None
          | Some (Err e) => Some (Err e)
          | Some (Ok s) => Some (Ok (p :: s))
          end
      end
  end.
(* Particles(n, real_momenta=rm, fix_mom_cons=fixmc) over mpc, particles.py:44-63: [tss] are the turns
   of each leg, [ref] those of the reference vector, [sample] the two legs that fix_mom_cons draws.
   Simplifications: abs(x) > tollerance is x <> 0; internal masses are not assigned here. *)
Definition new_mpc (cv : convention) (rm : bool) (tss : list (list turn)) (ref : list turn) (sample : option (Z * Z)) (fixmc : bool) : option (ps K * result unit) :=
  match mpc_legs cv rm tss with
  | None => None
  | Some (Err e) => Some ([], Err e)
  | Some (Ok s) =>
      match mpc_leg cv rm ref with
      | None => None
      | Some (Err e) => Some (s, Err e)
      | Some (Ok _) =>
          Some (if fixmc && negb (mom_cons_check s) then fix_mom_cons cv sample 0%Z 0%Z rm 1%Z s else (s, Ok tt))
      end
  end.
End Point.
