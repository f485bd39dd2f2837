(* What the random momenta should be. *)
From Coq Require Import List ZArith Bool.
From Verif Require Import Base Fld Particle MpcRandom.
Import ListNotations.

(* randrange(-100, 101) and randrange(1, 201) *)
Definition drawn (d : Z * Z) : Prop := (-100 <= fst d <= 100 /\ 1 <= snd d <= 200)%Z.
Definition turn_ok (t : turn) : Prop :=
  drawn (x_re t) /\ drawn (x_im t) /\ drawn (y_re t) /\ drawn (y_im t) /\ drawn (z_re t) /\ drawn (z_im t).
Section Spec.
Context {K : Fld} (X : Cx K).
Open Scope fld_scope.
Definition isreal (x : K) : Prop := im X x = 0.
Definition positive (x : K) : Prop := pos X x = true.
(* z is zero or the square root of z^2 is -z *)
Definition backward (z : K) : Prop := positive (- re X z) \/ (re X z = 0 /\ (im X z = 0 \/ positive (- im X z))).
End Spec.

(* a real light-like momentum *)
Section Light.
Context {K : Fld} (X : Cx K).
Open Scope fld_scope.
Definition real_light (v : v4 K) : Prop :=
  isreal X (c0 v) /\ isreal X (c1 v) /\ isreal X (c2 v) /\ isreal X (c3 v) /\ c0 v * c0 v = c1 v * c1 v + c2 v * c2 v + c3 v * c3 v.
(* of positive, of negative energy *)
Definition outgoing (v : v4 K) : Prop := real_light v /\ positive X (c0 v).
Definition incoming (v : v4 K) : Prop := real_light v /\ positive X (- c0 v).
End Light.
