(* Specification vocabulary for single particles: what the representations of one
   momentum should be, and the histories of operations the theorems range over. *)
From Coq Require Import List ZArith Bool.
From Verif Require Import Base Fld Particle.
Import ListNotations.

Section Spec.
Context {K : Fld}.
Open Scope fld_scope.
Notation particle := (particle K).

(* the slashed momentum with upper indices, lower indices *)
Definition slash_up (i : K) (p : v4 K) : m2 K :=
  M2 (c0 p - c3 p) (- (c1 p - i * c2 p)) (- (c1 p + i * c2 p)) (c0 p + c3 p).
Definition slash_dn (i : K) (p : v4 K) : m2 K :=
  M2 (c0 p + c3 p) (c1 p - i * c2 p) (c1 p + i * c2 p) (c0 p - c3 p).
(* classical adjoint *)
Definition adj (m : m2 K) : m2 K := M2 (m11 m) (- m01 m) (- m10 m) (m00 m).
Definition raise_r (v : v2 K) : v2 K := V2 (e1 v) (- e0 v).

Record consistent (p : particle) : Prop := {
  cons_r2b : r2b p = adj (r2 p);
  cons_fm : match fm p with
            | None => fmd p = None /\ @fimag K = None
            | Some v => fmd p = Some (V4 (c0 v) (- c1 v) (- c2 v) (- c3 v)) /\
                        exists i, fimag = Some i /\ r2 p = slash_up i v /\ r2b p = slash_dn i v
            end;
  cons_r : r_u p = option_map raise_r (r_d p);
  cons_l : l_u p = option_map raise_r (l_d p)
}.

(* the user-visible operations that change one particle *)
Inductive op :=
| ORd (v : v2 K) | ORu (v : v2 K) | OLd (v : v2 K) | OLu (v : v2 K)
| OR2 (cv : convention) (m : m2 K) | OR2b (cv : convention) (m : m2 K)
| OFm (cv : convention) (v : v4 K) | OFmd (cv : convention) (v : v4 K)
| OFlip.
Definition do_op (o : op) : PM unit :=
  match o with
  | ORd v => assign_r_sp_d v | ORu v => assign_r_sp_u v
  | OLd v => assign_l_sp_d v | OLu v => assign_l_sp_u v
  | OR2 cv m => assign_r2_sp cv m | OR2b cv m => assign_r2_sp_b cv m
  | OFm cv v => assign_four_mom cv v | OFmd cv v => assign_four_mom_d cv v
  | OFlip => angles_for_squares
  end.

(* a program that performs the operations in order and stops at the first
   escaping exception *)
Fixpoint run (ops : list op) (p : particle) : particle * result unit :=
  match ops with
  | [] => (p, Ok tt)
  | o :: ops' => match do_op o p with
                 | (p', Ok _) => run ops' p'
                 | (p', Err e) => (p', Err e)
                 end
  end.
(* a program that wraps every operation in try/except and carries on *)
Definition run_all (ops : list op) (p : particle) : particle :=
  fold_left (fun q o => fst (do_op o q)) ops p.

(* the states a constructor can produce *)
Inductive constructed : particle -> Prop :=
| con_sp r l : constructed (new_spinors r l)
| con_r2 cv m p : new_r2 cv m = Ok p -> constructed p
| con_fm cv v p : new_four_mom cv v = Ok p -> constructed p.

(* the spinors of p multiply out to its momentum *)
Definition reproduces (p : particle) : Prop :=
  exists r l, r_d p = Some r /\ l_d p = Some l /\
    r2b p = outer r l /\ r2 p = outer (raise_r l) (raise_r r) /\
    r_u p = Some (raise_r r) /\ l_u p = Some (raise_r l).


(* what assigning a massless momentum with slashed matrix m must do *)
Definition massless_outcome (cv : convention) (m : m2 K) (x : particle * result unit) : Prop :=
  (m11 m <> 0 -> (cv = Symmetric -> fsqrt (m11 m) <> None) ->
     exists q, x = (q, Ok tt) /\ reproduces q /\ r2 q = m /\ r2b q = adj m) /\
  (m11 m = 0 ->
     match cv with
     | Symmetric => exists q, x = (q, Ok tt) /\
         r_d q = None /\ r_u q = None /\ l_d q = None /\ l_u q = None
     | Asymmetric => snd x = Err ZeroDivisionError
     end).

(* a state reachable from a constructor by operations none of which raises *)
Definition reachable (p : particle) : Prop :=
  exists p0 ops, constructed p0 /\ run ops p0 = (p, Ok tt).

(* Minkowski product *)
Definition mink (v w : v4 K) : K :=
  c0 v * c0 w - c1 v * c1 w - c2 v * c2 w - c3 v * c3 w.

End Spec.
