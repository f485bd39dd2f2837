(* Random momenta of a Particle over the complex numbers. *)
From Coq Require Import List ZArith Bool Ring Field.
From Verif Require Import Base Fld Particle.
Import ListNotations.

(* The numbers of mpmath.mpc, in exact arithmetic: real and imaginary parts, the order of the real
   numbers and the branch of the square root, whose real part is not negative, and whose imaginary
   part is not negative if the real part is zero (particle.py:302-321, fields/field.py:1-5).
   [re] and [im] are numbers of the same type with no imaginary part; [pos x] is x > 0. *)
Record Cx (K : Fld) : Type := mkCx {
  ci : K;
  ci_imag : fimag = Some ci;
  re : K -> K; im : K -> K;
  cx_parts : forall x, x = (re x + ci * im x)%fld;
  cx_unique : forall a b, im a = f0 -> im b = f0 -> re (a + ci * b)%fld = a /\ im (a + ci * b)%fld = b;
  im_re : forall x, im (re x) = f0;
  im_im : forall x, im (im x) = f0;
  im_one : im f1 = f0;
  im_add : forall a b, im a = f0 -> im b = f0 -> im (a + b)%fld = f0;
  im_mul : forall a b, im a = f0 -> im b = f0 -> im (a * b)%fld = f0;
  im_opp : forall a, im a = f0 -> im (- a)%fld = f0;
  im_inv : forall a, im a = f0 -> im (finv a) = f0;
  pos : K -> bool;
  pos_real : forall a, pos a = true -> im a = f0;
  pos_some : forall a, im a = f0 -> a = f0 \/ pos a = true \/ pos (- a)%fld = true;
  pos_zero : pos f0 = false;
  pos_add : forall a b, pos a = true -> pos b = true -> pos (a + b)%fld = true;
  pos_mul : forall a b, pos a = true -> pos b = true -> pos (a * b)%fld = true;
  cx_sqrt : forall x y, fsqrt x = Some y -> pos (re y) = true \/ (re y = f0 /\ (im y = f0 \/ pos (im y) = true))
}.
Arguments ci {K}. Arguments re {K}. Arguments im {K}. Arguments pos {K}.

Section Mpc.
Context {K : Fld} (X : Cx K).
Open Scope fld_scope.
(* an integer as a number of the field, mpmath.mpc(n) in tools.py:62 *)
Definition mpc_int (z : Z) : K := InitialRing.gen_phiZ f0 f1 fadd fmul fopp z.
(* rand_frac, tools.py:61-62; the two numbers that randrange draws are given *)
Definition rand_frac (d : Z * Z) : K := mpc_int (fst d) / mpc_int (snd d).
(* the numbers drawn in one turn of the loop of randomise_mpc, particle.py:313-316: real and imaginary
   parts of the three components; with real_momentum only the real parts are drawn *)
Record turn := mkTurn { x_re : Z * Z; x_im : Z * Z; y_re : Z * Z; y_im : Z * Z; z_re : Z * Z; z_im : Z * Z }.
(* particle.py:313-316 *)
Definition turn_momentum (real_momentum : bool) (t : turn) : K * K * K :=
  if real_momentum then (rand_frac (x_re t), rand_frac (y_re t), rand_frac (z_re t))
  else (rand_frac (x_re t) + ci X * rand_frac (x_im t), rand_frac (y_re t) + ci X * rand_frac (y_im t), rand_frac (z_re t) + ci X * rand_frac (z_im t)).
(* the test that ends the loop, particle.py:317-318; abs(x) == 0 is x = 0 *)
Definition accepted (p : K * K * K) : bool :=
  let '(x, y, z) := p in
  negb (feqb x 0 && feqb y 0 && negb (pos X (re X z)) && feqb (im X z) 0).
(* the loop, particle.py:312-318; None if it has not ended after the given turns *)
Fixpoint mpc_loop (real_momentum : bool) (ts : list turn) : option (K * K * K) :=
  match ts with
  | [] => None
  | t :: ts' => let p := turn_momentum real_momentum t in if accepted p then Some p else mpc_loop real_momentum ts'
  end.
(* randomise_mpc, particle.py:310-321, for the turns given; a square root that does not exist is a
   ValueError, as in Particle.v *)
Definition randomise_mpc (cv : convention) (real_momentum : bool) (ts : list turn) (p : particle K) : option (particle K * result unit) :=
  match mpc_loop real_momentum ts with
  | None => None
  | Some (x, y, z) =>
      match fsqrt (x * x + y * y + z * z) with
      | Some e => Some (assign_four_mom cv (V4 e x y z) p)
      | None => Some (p, Err ValueError)
      end
  end.
End Mpc.
