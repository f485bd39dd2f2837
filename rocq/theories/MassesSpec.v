(* Specification vocabulary for internal masses. *)
From Coq Require Import Ascii String.
From Coq Require Import List ZArith Bool.
From Verif Require Import Base Fld Index Phase Str Masses.
Import ListNotations.
Open Scope Z_scope.

(* the text s_ijk or sijk for one-digit labels *)
Definition alias (underscore : bool) (c : list Z) : pystr :=
  (115 :: if underscore then [95] else []) ++ map (fun d => 48 + d) c.
Definition digit_label (d : Z) : Prop := 1 <= d <= 9.
(* names accepted for a mass, other than those of the masses of the legs (m_1, m1, M_1, M1) *)
Definition mass_name (n : pystr) : Prop := is_mass n = true /\ match_mi n = None /\ is_property n = false.

Section Programs.
Context {K : Fld}.
(* sets that a point holds *)
Definition held (w : world K) (l : nat) : Prop := exists o, In o (objs w) /\ masses o = CSet l.
(* a statement that hands no set to a second point, and no list or tuple *)
Definition fair (o : op K) (w : world K) : Prop :=
  match o with
  | OSet _ => True
  | ONew ANone _ => True
  | ONew (ADict d) _ => Forall (fun kv => mass_name (fst kv)) d
  | ONew (ANames (CSet l)) _ => (l < length (sets w))%nat /\ ~ held w l /\ Forall mass_name (nth l (sets w) [])
  | ONew (ANames (CList ns)) _ | ONew (ANames (CTuple ns)) _ => False
  | OAssign _ n _ => mass_name n
  end.
Fixpoint fair_run (l : list (op K)) (w : world K) : Prop :=
  match l with [] => True | o :: l' => fair o w /\ fair_run l' (run_op o w) end.
End Programs.
