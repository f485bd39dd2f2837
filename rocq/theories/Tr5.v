(* The expressions of lips/hardcoded_limits/particles_set.py:493-497, the solution
   of "tr5 = x/4" at five legs, translated literally: x**2 is written (x * x), 4 is
   (2 * 2), a quotient is a numerator and a denominator. *)
From Coq Require Import List ZArith Bool.
From Verif Require Import Base Fld.

Section Tr5.
Context {K : Fld}.
Open Scope fld_scope.

(* particles_set.py:493 *)
Definition b1_num (a2 a3 a4 b2 b3 b4 c1 c2 c3 c4 d1 d2 d3 d4 x : K) : K :=
    ((a2 * a2) * (b3 * b3) * b4 * c1 * c2 * c3 * d2 * d3 * d4 - (a2 * a2) * (b3 * b3) * b4 * c1 * c2 * c4 * d2
    * (d3 * d3) - (a2 * a2) * (b3 * b3) * b4 * c1 * (c3 * c3) * (d2 * d2) * d4 + (a2 * a2) * (b3 * b3) * b4 *
    c1 * c3 * c4 * (d2 * d2) * d3 - (a2 * a2) * (b3 * b3) * b4 * (c2 * c2) * c3 * d1 * d3 * d4 + (a2 * a2) *
    (b3 * b3) * b4 * (c2 * c2) * c4 * d1 * (d3 * d3) + (a2 * a2) * (b3 * b3) * b4 * c2 * (c3 * c3) * d1 * d2 *
    d4 - (a2 * a2) * (b3 * b3) * b4 * c2 * c3 * c4 * d1 * d2 * d3 + (a2 * a2) * b3 * (b4 * b4) * c1 * c2 * c3
    * d2 * (d4 * d4) - (a2 * a2) * b3 * (b4 * b4) * c1 * c2 * c4 * d2 * d3 * d4 - (a2 * a2) * b3 * (b4 * b4) *
    c1 * c3 * c4 * (d2 * d2) * d4 + (a2 * a2) * b3 * (b4 * b4) * c1 * (c4 * c4) * (d2 * d2) * d3 - (a2 * a2) *
    b3 * (b4 * b4) * (c2 * c2) * c3 * d1 * (d4 * d4) + (a2 * a2) * b3 * (b4 * b4) * (c2 * c2) * c4 * d1 * d3 *
    d4 + (a2 * a2) * b3 * (b4 * b4) * c2 * c3 * c4 * d1 * d2 * d4 - (a2 * a2) * b3 * (b4 * b4) * c2 * (c4 *
    c4) * d1 * d2 * d3 - a2 * a3 * b2 * b3 * b4 * c1 * (c2 * c2) * (d3 * d3) * d4 + 2 * a2 * a3 * b2 * b3 * b4
    * c1 * c2 * c4 * d2 * (d3 * d3) + a2 * a3 * b2 * b3 * b4 * c1 * (c3 * c3) * (d2 * d2) * d4 - 2 * a2 * a3 *
    b2 * b3 * b4 * c1 * c3 * c4 * (d2 * d2) * d3 + 2 * a2 * a3 * b2 * b3 * b4 * (c2 * c2) * c3 * d1 * d3 * d4
    - a2 * a3 * b2 * b3 * b4 * (c2 * c2) * c4 * d1 * (d3 * d3) - 2 * a2 * a3 * b2 * b3 * b4 * c2 * (c3 * c3) *
    d1 * d2 * d4 + a2 * a3 * b2 * b3 * b4 * (c3 * c3) * c4 * d1 * (d2 * d2) - a2 * a3 * b2 * (b4 * b4) * c1 *
    (c2 * c2) * d3 * (d4 * d4) + 2 * a2 * a3 * b2 * (b4 * b4) * c1 * c2 * c4 * d2 * d3 * d4 - a2 * a3 * b2 *
    (b4 * b4) * c1 * (c4 * c4) * (d2 * d2) * d3 + a2 * a3 * b2 * (b4 * b4) * (c2 * c2) * c3 * d1 * (d4 * d4) -
    2 * a2 * a3 * b2 * (b4 * b4) * c2 * c3 * c4 * d1 * d2 * d4 + a2 * a3 * b2 * (b4 * b4) * c3 * (c4 * c4) *
    d1 * (d2 * d2) + a2 * a3 * b3 * (b4 * b4) * c1 * (c3 * c3) * d2 * (d4 * d4) - 2 * a2 * a3 * b3 * (b4 * b4)
    * c1 * c3 * c4 * d2 * d3 * d4 + a2 * a3 * b3 * (b4 * b4) * c1 * (c4 * c4) * d2 * (d3 * d3) - a2 * a3 * b3
    * (b4 * b4) * c2 * (c3 * c3) * d1 * (d4 * d4) + 2 * a2 * a3 * b3 * (b4 * b4) * c2 * c3 * c4 * d1 * d3 * d4
    - a2 * a3 * b3 * (b4 * b4) * c2 * (c4 * c4) * d1 * (d3 * d3) + a2 * a4 * b2 * (b3 * b3) * c1 * (c2 * c2) *
    (d3 * d3) * d4 - 2 * a2 * a4 * b2 * (b3 * b3) * c1 * c2 * c3 * d2 * d3 * d4 + a2 * a4 * b2 * (b3 * b3) *
    c1 * (c3 * c3) * (d2 * d2) * d4 - a2 * a4 * b2 * (b3 * b3) * (c2 * c2) * c4 * d1 * (d3 * d3) + 2 * a2 * a4
    * b2 * (b3 * b3) * c2 * c3 * c4 * d1 * d2 * d3 - a2 * a4 * b2 * (b3 * b3) * (c3 * c3) * c4 * d1 * (d2 *
    d2) + a2 * a4 * b2 * b3 * b4 * c1 * (c2 * c2) * d3 * (d4 * d4) - 2 * a2 * a4 * b2 * b3 * b4 * c1 * c2 * c3
    * d2 * (d4 * d4) + 2 * a2 * a4 * b2 * b3 * b4 * c1 * c3 * c4 * (d2 * d2) * d4 - a2 * a4 * b2 * b3 * b4 *
    c1 * (c4 * c4) * (d2 * d2) * d3 + a2 * a4 * b2 * b3 * b4 * (c2 * c2) * c3 * d1 * (d4 * d4) - 2 * a2 * a4 *
    b2 * b3 * b4 * (c2 * c2) * c4 * d1 * d3 * d4 + 2 * a2 * a4 * b2 * b3 * b4 * c2 * (c4 * c4) * d1 * d2 * d3
    - a2 * a4 * b2 * b3 * b4 * c3 * (c4 * c4) * d1 * (d2 * d2) - a2 * a4 * (b3 * b3) * b4 * c1 * (c3 * c3) *
    d2 * (d4 * d4) + 2 * a2 * a4 * (b3 * b3) * b4 * c1 * c3 * c4 * d2 * d3 * d4 - a2 * a4 * (b3 * b3) * b4 *
    c1 * (c4 * c4) * d2 * (d3 * d3) + a2 * a4 * (b3 * b3) * b4 * c2 * (c3 * c3) * d1 * (d4 * d4) - 2 * a2 * a4
    * (b3 * b3) * b4 * c2 * c3 * c4 * d1 * d3 * d4 + a2 * a4 * (b3 * b3) * b4 * c2 * (c4 * c4) * d1 * (d3 *
    d3) + (a3 * a3) * (b2 * b2) * b4 * c1 * (c2 * c2) * (d3 * d3) * d4 - (a3 * a3) * (b2 * b2) * b4 * c1 * c2
    * c3 * d2 * d3 * d4 - (a3 * a3) * (b2 * b2) * b4 * c1 * c2 * c4 * d2 * (d3 * d3) + (a3 * a3) * (b2 * b2) *
    b4 * c1 * c3 * c4 * (d2 * d2) * d3 - (a3 * a3) * (b2 * b2) * b4 * (c2 * c2) * c3 * d1 * d3 * d4 + (a3 *
    a3) * (b2 * b2) * b4 * c2 * (c3 * c3) * d1 * d2 * d4 + (a3 * a3) * (b2 * b2) * b4 * c2 * c3 * c4 * d1 * d2
    * d3 - (a3 * a3) * (b2 * b2) * b4 * (c3 * c3) * c4 * d1 * (d2 * d2) - (a3 * a3) * b2 * (b4 * b4) * c1 * c2
    * c3 * d3 * (d4 * d4) + (a3 * a3) * b2 * (b4 * b4) * c1 * c2 * c4 * (d3 * d3) * d4 + (a3 * a3) * b2 * (b4
    * b4) * c1 * c3 * c4 * d2 * d3 * d4 - (a3 * a3) * b2 * (b4 * b4) * c1 * (c4 * c4) * d2 * (d3 * d3) + (a3 *
    a3) * b2 * (b4 * b4) * c2 * (c3 * c3) * d1 * (d4 * d4) - (a3 * a3) * b2 * (b4 * b4) * c2 * c3 * c4 * d1 *
    d3 * d4 - (a3 * a3) * b2 * (b4 * b4) * (c3 * c3) * c4 * d1 * d2 * d4 + (a3 * a3) * b2 * (b4 * b4) * c3 *
    (c4 * c4) * d1 * d2 * d3 - a3 * a4 * (b2 * b2) * b3 * c1 * (c2 * c2) * (d3 * d3) * d4 + 2 * a3 * a4 * (b2
    * b2) * b3 * c1 * c2 * c3 * d2 * d3 * d4 - a3 * a4 * (b2 * b2) * b3 * c1 * (c3 * c3) * (d2 * d2) * d4 + a3
    * a4 * (b2 * b2) * b3 * (c2 * c2) * c4 * d1 * (d3 * d3) - 2 * a3 * a4 * (b2 * b2) * b3 * c2 * c3 * c4 * d1
    * d2 * d3 + a3 * a4 * (b2 * b2) * b3 * (c3 * c3) * c4 * d1 * (d2 * d2) + a3 * a4 * (b2 * b2) * b4 * c1 *
    (c2 * c2) * d3 * (d4 * d4) - 2 * a3 * a4 * (b2 * b2) * b4 * c1 * c2 * c4 * d2 * d3 * d4 + a3 * a4 * (b2 *
    b2) * b4 * c1 * (c4 * c4) * (d2 * d2) * d3 - a3 * a4 * (b2 * b2) * b4 * (c2 * c2) * c3 * d1 * (d4 * d4) +
    2 * a3 * a4 * (b2 * b2) * b4 * c2 * c3 * c4 * d1 * d2 * d4 - a3 * a4 * (b2 * b2) * b4 * c3 * (c4 * c4) *
    d1 * (d2 * d2) + 2 * a3 * a4 * b2 * b3 * b4 * c1 * c2 * c3 * d3 * (d4 * d4) - 2 * a3 * a4 * b2 * b3 * b4 *
    c1 * c2 * c4 * (d3 * d3) * d4 - a3 * a4 * b2 * b3 * b4 * c1 * (c3 * c3) * d2 * (d4 * d4) + a3 * a4 * b2 *
    b3 * b4 * c1 * (c4 * c4) * d2 * (d3 * d3) - a3 * a4 * b2 * b3 * b4 * c2 * (c3 * c3) * d1 * (d4 * d4) + a3
    * a4 * b2 * b3 * b4 * c2 * (c4 * c4) * d1 * (d3 * d3) + 2 * a3 * a4 * b2 * b3 * b4 * (c3 * c3) * c4 * d1 *
    d2 * d4 - 2 * a3 * a4 * b2 * b3 * b4 * c3 * (c4 * c4) * d1 * d2 * d3 - (a4 * a4) * (b2 * b2) * b3 * c1 *
    (c2 * c2) * d3 * (d4 * d4) + (a4 * a4) * (b2 * b2) * b3 * c1 * c2 * c3 * d2 * (d4 * d4) + (a4 * a4) * (b2
    * b2) * b3 * c1 * c2 * c4 * d2 * d3 * d4 - (a4 * a4) * (b2 * b2) * b3 * c1 * c3 * c4 * (d2 * d2) * d4 +
    (a4 * a4) * (b2 * b2) * b3 * (c2 * c2) * c4 * d1 * d3 * d4 - (a4 * a4) * (b2 * b2) * b3 * c2 * c3 * c4 *
    d1 * d2 * d4 - (a4 * a4) * (b2 * b2) * b3 * c2 * (c4 * c4) * d1 * d2 * d3 + (a4 * a4) * (b2 * b2) * b3 *
    c3 * (c4 * c4) * d1 * (d2 * d2) - (a4 * a4) * b2 * (b3 * b3) * c1 * c2 * c3 * d3 * (d4 * d4) + (a4 * a4) *
    b2 * (b3 * b3) * c1 * c2 * c4 * (d3 * d3) * d4 + (a4 * a4) * b2 * (b3 * b3) * c1 * (c3 * c3) * d2 * (d4 *
    d4) - (a4 * a4) * b2 * (b3 * b3) * c1 * c3 * c4 * d2 * d3 * d4 + (a4 * a4) * b2 * (b3 * b3) * c2 * c3 * c4
    * d1 * d3 * d4 - (a4 * a4) * b2 * (b3 * b3) * c2 * (c4 * c4) * d1 * (d3 * d3) - (a4 * a4) * b2 * (b3 * b3)
    * (c3 * c3) * c4 * d1 * d2 * d4 + (a4 * a4) * b2 * (b3 * b3) * c3 * (c4 * c4) * d1 * d2 * d3 - b2 * c1 *
    d2 * x / (2 * 2) + b2 * c2 * d1 * x / (2 * 2) - b3 * c1 * d3 * x / (2 * 2) + b3 * c3 * d1 * x / (2 * 2) -
    b4 * c1 * d4 * x / (2 * 2) + b4 * c4 * d1 * x / (2 * 2)).
Definition b1_den (a2 a3 a4 b2 b3 b4 c1 c2 c3 c4 d1 d2 d3 d4 x : K) : K :=
    ((a2 * a2) * b3 * b4 * (c1 * c1) * c3 * (d2 * d2) * d4 - (a2 * a2) * b3 * b4 * (c1 * c1) * c4 * (d2 * d2)
    * d3 - 2 * (a2 * a2) * b3 * b4 * c1 * c2 * c3 * d1 * d2 * d4 + 2 * (a2 * a2) * b3 * b4 * c1 * c2 * c4 * d1
    * d2 * d3 + (a2 * a2) * b3 * b4 * (c2 * c2) * c3 * (d1 * d1) * d4 - (a2 * a2) * b3 * b4 * (c2 * c2) * c4 *
    (d1 * d1) * d3 - a2 * a3 * b2 * b4 * (c1 * c1) * c3 * (d2 * d2) * d4 + a2 * a3 * b2 * b4 * (c1 * c1) * c4
    * (d2 * d2) * d3 + 2 * a2 * a3 * b2 * b4 * c1 * c2 * c3 * d1 * d2 * d4 - 2 * a2 * a3 * b2 * b4 * c1 * c2 *
    c4 * d1 * d2 * d3 - a2 * a3 * b2 * b4 * (c2 * c2) * c3 * (d1 * d1) * d4 + a2 * a3 * b2 * b4 * (c2 * c2) *
    c4 * (d1 * d1) * d3 + a2 * a3 * b3 * b4 * (c1 * c1) * c2 * (d3 * d3) * d4 - a2 * a3 * b3 * b4 * (c1 * c1)
    * c4 * d2 * (d3 * d3) - 2 * a2 * a3 * b3 * b4 * c1 * c2 * c3 * d1 * d3 * d4 + 2 * a2 * a3 * b3 * b4 * c1 *
    c3 * c4 * d1 * d2 * d3 + a2 * a3 * b3 * b4 * c2 * (c3 * c3) * (d1 * d1) * d4 - a2 * a3 * b3 * b4 * (c3 *
    c3) * c4 * (d1 * d1) * d2 + a2 * a3 * (b4 * b4) * (c1 * c1) * c2 * d3 * (d4 * d4) - a2 * a3 * (b4 * b4) *
    (c1 * c1) * c3 * d2 * (d4 * d4) - 2 * a2 * a3 * (b4 * b4) * c1 * c2 * c4 * d1 * d3 * d4 + 2 * a2 * a3 *
    (b4 * b4) * c1 * c3 * c4 * d1 * d2 * d4 + a2 * a3 * (b4 * b4) * c2 * (c4 * c4) * (d1 * d1) * d3 - a2 * a3
    * (b4 * b4) * c3 * (c4 * c4) * (d1 * d1) * d2 - a2 * a4 * b2 * b3 * (c1 * c1) * c3 * (d2 * d2) * d4 + a2 *
    a4 * b2 * b3 * (c1 * c1) * c4 * (d2 * d2) * d3 + 2 * a2 * a4 * b2 * b3 * c1 * c2 * c3 * d1 * d2 * d4 - 2 *
    a2 * a4 * b2 * b3 * c1 * c2 * c4 * d1 * d2 * d3 - a2 * a4 * b2 * b3 * (c2 * c2) * c3 * (d1 * d1) * d4 + a2
    * a4 * b2 * b3 * (c2 * c2) * c4 * (d1 * d1) * d3 - a2 * a4 * (b3 * b3) * (c1 * c1) * c2 * (d3 * d3) * d4 +
    a2 * a4 * (b3 * b3) * (c1 * c1) * c4 * d2 * (d3 * d3) + 2 * a2 * a4 * (b3 * b3) * c1 * c2 * c3 * d1 * d3 *
    d4 - 2 * a2 * a4 * (b3 * b3) * c1 * c3 * c4 * d1 * d2 * d3 - a2 * a4 * (b3 * b3) * c2 * (c3 * c3) * (d1 *
    d1) * d4 + a2 * a4 * (b3 * b3) * (c3 * c3) * c4 * (d1 * d1) * d2 - a2 * a4 * b3 * b4 * (c1 * c1) * c2 * d3
    * (d4 * d4) + a2 * a4 * b3 * b4 * (c1 * c1) * c3 * d2 * (d4 * d4) + 2 * a2 * a4 * b3 * b4 * c1 * c2 * c4 *
    d1 * d3 * d4 - 2 * a2 * a4 * b3 * b4 * c1 * c3 * c4 * d1 * d2 * d4 - a2 * a4 * b3 * b4 * c2 * (c4 * c4) *
    (d1 * d1) * d3 + a2 * a4 * b3 * b4 * c3 * (c4 * c4) * (d1 * d1) * d2 - (a3 * a3) * b2 * b4 * (c1 * c1) *
    c2 * (d3 * d3) * d4 + (a3 * a3) * b2 * b4 * (c1 * c1) * c4 * d2 * (d3 * d3) + 2 * (a3 * a3) * b2 * b4 * c1
    * c2 * c3 * d1 * d3 * d4 - 2 * (a3 * a3) * b2 * b4 * c1 * c3 * c4 * d1 * d2 * d3 - (a3 * a3) * b2 * b4 *
    c2 * (c3 * c3) * (d1 * d1) * d4 + (a3 * a3) * b2 * b4 * (c3 * c3) * c4 * (d1 * d1) * d2 + a3 * a4 * (b2 *
    b2) * (c1 * c1) * c3 * (d2 * d2) * d4 - a3 * a4 * (b2 * b2) * (c1 * c1) * c4 * (d2 * d2) * d3 - 2 * a3 *
    a4 * (b2 * b2) * c1 * c2 * c3 * d1 * d2 * d4 + 2 * a3 * a4 * (b2 * b2) * c1 * c2 * c4 * d1 * d2 * d3 + a3
    * a4 * (b2 * b2) * (c2 * c2) * c3 * (d1 * d1) * d4 - a3 * a4 * (b2 * b2) * (c2 * c2) * c4 * (d1 * d1) * d3
    + a3 * a4 * b2 * b3 * (c1 * c1) * c2 * (d3 * d3) * d4 - a3 * a4 * b2 * b3 * (c1 * c1) * c4 * d2 * (d3 *
    d3) - 2 * a3 * a4 * b2 * b3 * c1 * c2 * c3 * d1 * d3 * d4 + 2 * a3 * a4 * b2 * b3 * c1 * c3 * c4 * d1 * d2
    * d3 + a3 * a4 * b2 * b3 * c2 * (c3 * c3) * (d1 * d1) * d4 - a3 * a4 * b2 * b3 * (c3 * c3) * c4 * (d1 *
    d1) * d2 - a3 * a4 * b2 * b4 * (c1 * c1) * c2 * d3 * (d4 * d4) + a3 * a4 * b2 * b4 * (c1 * c1) * c3 * d2 *
    (d4 * d4) + 2 * a3 * a4 * b2 * b4 * c1 * c2 * c4 * d1 * d3 * d4 - 2 * a3 * a4 * b2 * b4 * c1 * c3 * c4 *
    d1 * d2 * d4 - a3 * a4 * b2 * b4 * c2 * (c4 * c4) * (d1 * d1) * d3 + a3 * a4 * b2 * b4 * c3 * (c4 * c4) *
    (d1 * d1) * d2 + (a4 * a4) * b2 * b3 * (c1 * c1) * c2 * d3 * (d4 * d4) - (a4 * a4) * b2 * b3 * (c1 * c1) *
    c3 * d2 * (d4 * d4) - 2 * (a4 * a4) * b2 * b3 * c1 * c2 * c4 * d1 * d3 * d4 + 2 * (a4 * a4) * b2 * b3 * c1
    * c3 * c4 * d1 * d2 * d4 + (a4 * a4) * b2 * b3 * c2 * (c4 * c4) * (d1 * d1) * d3 - (a4 * a4) * b2 * b3 *
    c3 * (c4 * c4) * (d1 * d1) * d2).
(* particles_set.py:494 *)
Definition a1_num (b1 a2 a3 a4 b2 b3 b4 c1 c2 c3 c4 d1 d2 d3 d4 x : K) : K :=
    ((a2 * a2) * b1 * b3 * b4 * c1 * c3 * (d2 * d2) * d4 - (a2 * a2) * b1 * b3 * b4 * c1 * c4 * (d2 * d2) * d3
    - (a2 * a2) * b1 * b3 * b4 * c2 * c3 * d1 * d2 * d4 + (a2 * a2) * b1 * b3 * b4 * c2 * c4 * d1 * d2 * d3 -
    (a2 * a2) * (b3 * b3) * b4 * c2 * c3 * d2 * d3 * d4 + (a2 * a2) * (b3 * b3) * b4 * c2 * c4 * d2 * (d3 *
    d3) + (a2 * a2) * (b3 * b3) * b4 * (c3 * c3) * (d2 * d2) * d4 - (a2 * a2) * (b3 * b3) * b4 * c3 * c4 * (d2
    * d2) * d3 - (a2 * a2) * b3 * (b4 * b4) * c2 * c3 * d2 * (d4 * d4) + (a2 * a2) * b3 * (b4 * b4) * c2 * c4
    * d2 * d3 * d4 + (a2 * a2) * b3 * (b4 * b4) * c3 * c4 * (d2 * d2) * d4 - (a2 * a2) * b3 * (b4 * b4) * (c4
    * c4) * (d2 * d2) * d3 - a2 * a3 * b1 * b2 * b4 * c1 * c3 * (d2 * d2) * d4 + a2 * a3 * b1 * b2 * b4 * c1 *
    c4 * (d2 * d2) * d3 + a2 * a3 * b1 * b2 * b4 * (c2 * c2) * d1 * d3 * d4 - 2 * a2 * a3 * b1 * b2 * b4 * c2
    * c4 * d1 * d2 * d3 + a2 * a3 * b1 * b2 * b4 * c3 * c4 * d1 * (d2 * d2) + a2 * a3 * b1 * b3 * b4 * c1 * c2
    * (d3 * d3) * d4 - a2 * a3 * b1 * b3 * b4 * c1 * c4 * d2 * (d3 * d3) - a2 * a3 * b1 * b3 * b4 * c2 * c4 *
    d1 * (d3 * d3) - a2 * a3 * b1 * b3 * b4 * (c3 * c3) * d1 * d2 * d4 + 2 * a2 * a3 * b1 * b3 * b4 * c3 * c4
    * d1 * d2 * d3 + a2 * a3 * b1 * (b4 * b4) * c1 * c2 * d3 * (d4 * d4) - a2 * a3 * b1 * (b4 * b4) * c1 * c3
    * d2 * (d4 * d4) - a2 * a3 * b1 * (b4 * b4) * c2 * c4 * d1 * d3 * d4 + a2 * a3 * b1 * (b4 * b4) * c3 * c4
    * d1 * d2 * d4 + a2 * a3 * b2 * b3 * b4 * (c2 * c2) * (d3 * d3) * d4 - 2 * a2 * a3 * b2 * b3 * b4 * c2 *
    c4 * d2 * (d3 * d3) - a2 * a3 * b2 * b3 * b4 * (c3 * c3) * (d2 * d2) * d4 + 2 * a2 * a3 * b2 * b3 * b4 *
    c3 * c4 * (d2 * d2) * d3 + a2 * a3 * b2 * (b4 * b4) * (c2 * c2) * d3 * (d4 * d4) - 2 * a2 * a3 * b2 * (b4
    * b4) * c2 * c4 * d2 * d3 * d4 + a2 * a3 * b2 * (b4 * b4) * (c4 * c4) * (d2 * d2) * d3 - a2 * a3 * b3 *
    (b4 * b4) * (c3 * c3) * d2 * (d4 * d4) + 2 * a2 * a3 * b3 * (b4 * b4) * c3 * c4 * d2 * d3 * d4 - a2 * a3 *
    b3 * (b4 * b4) * (c4 * c4) * d2 * (d3 * d3) - a2 * a4 * b1 * b2 * b3 * c1 * c3 * (d2 * d2) * d4 + a2 * a4
    * b1 * b2 * b3 * c1 * c4 * (d2 * d2) * d3 - a2 * a4 * b1 * b2 * b3 * (c2 * c2) * d1 * d3 * d4 + 2 * a2 *
    a4 * b1 * b2 * b3 * c2 * c3 * d1 * d2 * d4 - a2 * a4 * b1 * b2 * b3 * c3 * c4 * d1 * (d2 * d2) - a2 * a4 *
    b1 * (b3 * b3) * c1 * c2 * (d3 * d3) * d4 + a2 * a4 * b1 * (b3 * b3) * c1 * c4 * d2 * (d3 * d3) + a2 * a4
    * b1 * (b3 * b3) * c2 * c3 * d1 * d3 * d4 - a2 * a4 * b1 * (b3 * b3) * c3 * c4 * d1 * d2 * d3 - a2 * a4 *
    b1 * b3 * b4 * c1 * c2 * d3 * (d4 * d4) + a2 * a4 * b1 * b3 * b4 * c1 * c3 * d2 * (d4 * d4) + a2 * a4 * b1
    * b3 * b4 * c2 * c3 * d1 * (d4 * d4) - 2 * a2 * a4 * b1 * b3 * b4 * c3 * c4 * d1 * d2 * d4 + a2 * a4 * b1
    * b3 * b4 * (c4 * c4) * d1 * d2 * d3 - a2 * a4 * b2 * (b3 * b3) * (c2 * c2) * (d3 * d3) * d4 + 2 * a2 * a4
    * b2 * (b3 * b3) * c2 * c3 * d2 * d3 * d4 - a2 * a4 * b2 * (b3 * b3) * (c3 * c3) * (d2 * d2) * d4 - a2 *
    a4 * b2 * b3 * b4 * (c2 * c2) * d3 * (d4 * d4) + 2 * a2 * a4 * b2 * b3 * b4 * c2 * c3 * d2 * (d4 * d4) - 2
    * a2 * a4 * b2 * b3 * b4 * c3 * c4 * (d2 * d2) * d4 + a2 * a4 * b2 * b3 * b4 * (c4 * c4) * (d2 * d2) * d3
    + a2 * a4 * (b3 * b3) * b4 * (c3 * c3) * d2 * (d4 * d4) - 2 * a2 * a4 * (b3 * b3) * b4 * c3 * c4 * d2 * d3
    * d4 + a2 * a4 * (b3 * b3) * b4 * (c4 * c4) * d2 * (d3 * d3) - (a3 * a3) * b1 * b2 * b4 * c1 * c2 * (d3 *
    d3) * d4 + (a3 * a3) * b1 * b2 * b4 * c1 * c4 * d2 * (d3 * d3) + (a3 * a3) * b1 * b2 * b4 * c2 * c3 * d1 *
    d3 * d4 - (a3 * a3) * b1 * b2 * b4 * c3 * c4 * d1 * d2 * d3 - (a3 * a3) * (b2 * b2) * b4 * (c2 * c2) * (d3
    * d3) * d4 + (a3 * a3) * (b2 * b2) * b4 * c2 * c3 * d2 * d3 * d4 + (a3 * a3) * (b2 * b2) * b4 * c2 * c4 *
    d2 * (d3 * d3) - (a3 * a3) * (b2 * b2) * b4 * c3 * c4 * (d2 * d2) * d3 + (a3 * a3) * b2 * (b4 * b4) * c2 *
    c3 * d3 * (d4 * d4) - (a3 * a3) * b2 * (b4 * b4) * c2 * c4 * (d3 * d3) * d4 - (a3 * a3) * b2 * (b4 * b4) *
    c3 * c4 * d2 * d3 * d4 + (a3 * a3) * b2 * (b4 * b4) * (c4 * c4) * d2 * (d3 * d3) + a3 * a4 * b1 * (b2 *
    b2) * c1 * c3 * (d2 * d2) * d4 - a3 * a4 * b1 * (b2 * b2) * c1 * c4 * (d2 * d2) * d3 - a3 * a4 * b1 * (b2
    * b2) * c2 * c3 * d1 * d2 * d4 + a3 * a4 * b1 * (b2 * b2) * c2 * c4 * d1 * d2 * d3 + a3 * a4 * b1 * b2 *
    b3 * c1 * c2 * (d3 * d3) * d4 - a3 * a4 * b1 * b2 * b3 * c1 * c4 * d2 * (d3 * d3) - 2 * a3 * a4 * b1 * b2
    * b3 * c2 * c3 * d1 * d3 * d4 + a3 * a4 * b1 * b2 * b3 * c2 * c4 * d1 * (d3 * d3) + a3 * a4 * b1 * b2 * b3
    * (c3 * c3) * d1 * d2 * d4 - a3 * a4 * b1 * b2 * b4 * c1 * c2 * d3 * (d4 * d4) + a3 * a4 * b1 * b2 * b4 *
    c1 * c3 * d2 * (d4 * d4) - a3 * a4 * b1 * b2 * b4 * c2 * c3 * d1 * (d4 * d4) + 2 * a3 * a4 * b1 * b2 * b4
    * c2 * c4 * d1 * d3 * d4 - a3 * a4 * b1 * b2 * b4 * (c4 * c4) * d1 * d2 * d3 + a3 * a4 * (b2 * b2) * b3 *
    (c2 * c2) * (d3 * d3) * d4 - 2 * a3 * a4 * (b2 * b2) * b3 * c2 * c3 * d2 * d3 * d4 + a3 * a4 * (b2 * b2) *
    b3 * (c3 * c3) * (d2 * d2) * d4 - a3 * a4 * (b2 * b2) * b4 * (c2 * c2) * d3 * (d4 * d4) + 2 * a3 * a4 *
    (b2 * b2) * b4 * c2 * c4 * d2 * d3 * d4 - a3 * a4 * (b2 * b2) * b4 * (c4 * c4) * (d2 * d2) * d3 - 2 * a3 *
    a4 * b2 * b3 * b4 * c2 * c3 * d3 * (d4 * d4) + 2 * a3 * a4 * b2 * b3 * b4 * c2 * c4 * (d3 * d3) * d4 + a3
    * a4 * b2 * b3 * b4 * (c3 * c3) * d2 * (d4 * d4) - a3 * a4 * b2 * b3 * b4 * (c4 * c4) * d2 * (d3 * d3) +
    (a4 * a4) * b1 * b2 * b3 * c1 * c2 * d3 * (d4 * d4) - (a4 * a4) * b1 * b2 * b3 * c1 * c3 * d2 * (d4 * d4)
    - (a4 * a4) * b1 * b2 * b3 * c2 * c4 * d1 * d3 * d4 + (a4 * a4) * b1 * b2 * b3 * c3 * c4 * d1 * d2 * d4 +
    (a4 * a4) * (b2 * b2) * b3 * (c2 * c2) * d3 * (d4 * d4) - (a4 * a4) * (b2 * b2) * b3 * c2 * c3 * d2 * (d4
    * d4) - (a4 * a4) * (b2 * b2) * b3 * c2 * c4 * d2 * d3 * d4 + (a4 * a4) * (b2 * b2) * b3 * c3 * c4 * (d2 *
    d2) * d4 + (a4 * a4) * b2 * (b3 * b3) * c2 * c3 * d3 * (d4 * d4) - (a4 * a4) * b2 * (b3 * b3) * c2 * c4 *
    (d3 * d3) * d4 - (a4 * a4) * b2 * (b3 * b3) * (c3 * c3) * d2 * (d4 * d4) + (a4 * a4) * b2 * (b3 * b3) * c3
    * c4 * d2 * d3 * d4 + b2 * d2 * x / (2 * 2) + b3 * d3 * x / (2 * 2) + b4 * d4 * x / (2 * 2)).
Definition a1_den (b1 a2 a3 a4 b2 b3 b4 c1 c2 c3 c4 d1 d2 d3 d4 x : K) : K :=
    (d1 * (a2 * (b3 * b3) * b4 * c2 * c3 * d3 * d4 - a2 * (b3 * b3) * b4 * c2 * c4 * (d3 * d3) - a2 * (b3 *
    b3) * b4 * (c3 * c3) * d2 * d4 + a2 * (b3 * b3) * b4 * c3 * c4 * d2 * d3 + a2 * b3 * (b4 * b4) * c2 * c3 *
    (d4 * d4) - a2 * b3 * (b4 * b4) * c2 * c4 * d3 * d4 - a2 * b3 * (b4 * b4) * c3 * c4 * d2 * d4 + a2 * b3 *
    (b4 * b4) * (c4 * c4) * d2 * d3 + a3 * (b2 * b2) * b4 * (c2 * c2) * d3 * d4 - a3 * (b2 * b2) * b4 * c2 *
    c3 * d2 * d4 - a3 * (b2 * b2) * b4 * c2 * c4 * d2 * d3 + a3 * (b2 * b2) * b4 * c3 * c4 * (d2 * d2) - a3 *
    b2 * (b4 * b4) * c2 * c3 * (d4 * d4) + a3 * b2 * (b4 * b4) * c2 * c4 * d3 * d4 + a3 * b2 * (b4 * b4) * c3
    * c4 * d2 * d4 - a3 * b2 * (b4 * b4) * (c4 * c4) * d2 * d3 - a4 * (b2 * b2) * b3 * (c2 * c2) * d3 * d4 +
    a4 * (b2 * b2) * b3 * c2 * c3 * d2 * d4 + a4 * (b2 * b2) * b3 * c2 * c4 * d2 * d3 - a4 * (b2 * b2) * b3 *
    c3 * c4 * (d2 * d2) - a4 * b2 * (b3 * b3) * c2 * c3 * d3 * d4 + a4 * b2 * (b3 * b3) * c2 * c4 * (d3 * d3)
    + a4 * b2 * (b3 * b3) * (c3 * c3) * d2 * d4 - a4 * b2 * (b3 * b3) * c3 * c4 * d2 * d3)).
(* particles_set.py:495 *)
Definition c5_num (d5 a2 a3 a4 b2 b3 b4 c1 c2 c3 c4 d1 d2 d3 d4 x : K) : K :=
    d5 * (- (2 * 2) * (a2 * a2) * b3 * b4 * c1 * c2 * c3 * d2 * d4 + (2 * 2) * (a2 * a2) * b3 * b4 * c1 * c2 *
    c4 * d2 * d3 + (2 * 2) * (a2 * a2) * b3 * b4 * (c2 * c2) * c3 * d1 * d4 - (2 * 2) * (a2 * a2) * b3 * b4 *
    (c2 * c2) * c4 * d1 * d3 + (2 * 2) * a2 * a3 * b2 * b4 * c1 * c2 * c3 * d2 * d4 - (2 * 2) * a2 * a3 * b2 *
    b4 * c1 * c2 * c4 * d2 * d3 - (2 * 2) * a2 * a3 * b2 * b4 * (c2 * c2) * c3 * d1 * d4 + (2 * 2) * a2 * a3 *
    b2 * b4 * (c2 * c2) * c4 * d1 * d3 - (2 * 2) * a2 * a3 * b3 * b4 * c1 * c2 * c3 * d3 * d4 + (2 * 2) * a2 *
    a3 * b3 * b4 * c1 * c3 * c4 * d2 * d3 + (2 * 2) * a2 * a3 * b3 * b4 * c2 * (c3 * c3) * d1 * d4 - (2 * 2) *
    a2 * a3 * b3 * b4 * (c3 * c3) * c4 * d1 * d2 - (2 * 2) * a2 * a3 * (b4 * b4) * c1 * c2 * c4 * d3 * d4 + (2
    * 2) * a2 * a3 * (b4 * b4) * c1 * c3 * c4 * d2 * d4 + (2 * 2) * a2 * a3 * (b4 * b4) * c2 * (c4 * c4) * d1
    * d3 - (2 * 2) * a2 * a3 * (b4 * b4) * c3 * (c4 * c4) * d1 * d2 + (2 * 2) * a2 * a4 * b2 * b3 * c1 * c2 *
    c3 * d2 * d4 - (2 * 2) * a2 * a4 * b2 * b3 * c1 * c2 * c4 * d2 * d3 - (2 * 2) * a2 * a4 * b2 * b3 * (c2 *
    c2) * c3 * d1 * d4 + (2 * 2) * a2 * a4 * b2 * b3 * (c2 * c2) * c4 * d1 * d3 + (2 * 2) * a2 * a4 * (b3 *
    b3) * c1 * c2 * c3 * d3 * d4 - (2 * 2) * a2 * a4 * (b3 * b3) * c1 * c3 * c4 * d2 * d3 - (2 * 2) * a2 * a4
    * (b3 * b3) * c2 * (c3 * c3) * d1 * d4 + (2 * 2) * a2 * a4 * (b3 * b3) * (c3 * c3) * c4 * d1 * d2 + (2 *
    2) * a2 * a4 * b3 * b4 * c1 * c2 * c4 * d3 * d4 - (2 * 2) * a2 * a4 * b3 * b4 * c1 * c3 * c4 * d2 * d4 -
    (2 * 2) * a2 * a4 * b3 * b4 * c2 * (c4 * c4) * d1 * d3 + (2 * 2) * a2 * a4 * b3 * b4 * c3 * (c4 * c4) * d1
    * d2 + (2 * 2) * (a3 * a3) * b2 * b4 * c1 * c2 * c3 * d3 * d4 - (2 * 2) * (a3 * a3) * b2 * b4 * c1 * c3 *
    c4 * d2 * d3 - (2 * 2) * (a3 * a3) * b2 * b4 * c2 * (c3 * c3) * d1 * d4 + (2 * 2) * (a3 * a3) * b2 * b4 *
    (c3 * c3) * c4 * d1 * d2 - (2 * 2) * a3 * a4 * (b2 * b2) * c1 * c2 * c3 * d2 * d4 + (2 * 2) * a3 * a4 *
    (b2 * b2) * c1 * c2 * c4 * d2 * d3 + (2 * 2) * a3 * a4 * (b2 * b2) * (c2 * c2) * c3 * d1 * d4 - (2 * 2) *
    a3 * a4 * (b2 * b2) * (c2 * c2) * c4 * d1 * d3 - (2 * 2) * a3 * a4 * b2 * b3 * c1 * c2 * c3 * d3 * d4 + (2
    * 2) * a3 * a4 * b2 * b3 * c1 * c3 * c4 * d2 * d3 + (2 * 2) * a3 * a4 * b2 * b3 * c2 * (c3 * c3) * d1 * d4
    - (2 * 2) * a3 * a4 * b2 * b3 * (c3 * c3) * c4 * d1 * d2 + (2 * 2) * a3 * a4 * b2 * b4 * c1 * c2 * c4 * d3
    * d4 - (2 * 2) * a3 * a4 * b2 * b4 * c1 * c3 * c4 * d2 * d4 - (2 * 2) * a3 * a4 * b2 * b4 * c2 * (c4 * c4)
    * d1 * d3 + (2 * 2) * a3 * a4 * b2 * b4 * c3 * (c4 * c4) * d1 * d2 - (2 * 2) * (a4 * a4) * b2 * b3 * c1 *
    c2 * c4 * d3 * d4 + (2 * 2) * (a4 * a4) * b2 * b3 * c1 * c3 * c4 * d2 * d4 + (2 * 2) * (a4 * a4) * b2 * b3
    * c2 * (c4 * c4) * d1 * d3 - (2 * 2) * (a4 * a4) * b2 * b3 * c3 * (c4 * c4) * d1 * d2 + c1 * x).
Definition c5_den (d5 a2 a3 a4 b2 b3 b4 c1 c2 c3 c4 d1 d2 d3 d4 x : K) : K :=
    (- (2 * 2) * (a2 * a2) * b3 * b4 * c1 * c3 * (d2 * d2) * d4 + (2 * 2) * (a2 * a2) * b3 * b4 * c1 * c4 *
    (d2 * d2) * d3 + (2 * 2) * (a2 * a2) * b3 * b4 * c2 * c3 * d1 * d2 * d4 - (2 * 2) * (a2 * a2) * b3 * b4 *
    c2 * c4 * d1 * d2 * d3 + (2 * 2) * a2 * a3 * b2 * b4 * c1 * c3 * (d2 * d2) * d4 - (2 * 2) * a2 * a3 * b2 *
    b4 * c1 * c4 * (d2 * d2) * d3 - (2 * 2) * a2 * a3 * b2 * b4 * c2 * c3 * d1 * d2 * d4 + (2 * 2) * a2 * a3 *
    b2 * b4 * c2 * c4 * d1 * d2 * d3 - (2 * 2) * a2 * a3 * b3 * b4 * c1 * c2 * (d3 * d3) * d4 + (2 * 2) * a2 *
    a3 * b3 * b4 * c1 * c4 * d2 * (d3 * d3) + (2 * 2) * a2 * a3 * b3 * b4 * c2 * c3 * d1 * d3 * d4 - (2 * 2) *
    a2 * a3 * b3 * b4 * c3 * c4 * d1 * d2 * d3 - (2 * 2) * a2 * a3 * (b4 * b4) * c1 * c2 * d3 * (d4 * d4) + (2
    * 2) * a2 * a3 * (b4 * b4) * c1 * c3 * d2 * (d4 * d4) + (2 * 2) * a2 * a3 * (b4 * b4) * c2 * c4 * d1 * d3
    * d4 - (2 * 2) * a2 * a3 * (b4 * b4) * c3 * c4 * d1 * d2 * d4 + (2 * 2) * a2 * a4 * b2 * b3 * c1 * c3 *
    (d2 * d2) * d4 - (2 * 2) * a2 * a4 * b2 * b3 * c1 * c4 * (d2 * d2) * d3 - (2 * 2) * a2 * a4 * b2 * b3 * c2
    * c3 * d1 * d2 * d4 + (2 * 2) * a2 * a4 * b2 * b3 * c2 * c4 * d1 * d2 * d3 + (2 * 2) * a2 * a4 * (b3 * b3)
    * c1 * c2 * (d3 * d3) * d4 - (2 * 2) * a2 * a4 * (b3 * b3) * c1 * c4 * d2 * (d3 * d3) - (2 * 2) * a2 * a4
    * (b3 * b3) * c2 * c3 * d1 * d3 * d4 + (2 * 2) * a2 * a4 * (b3 * b3) * c3 * c4 * d1 * d2 * d3 + (2 * 2) *
    a2 * a4 * b3 * b4 * c1 * c2 * d3 * (d4 * d4) - (2 * 2) * a2 * a4 * b3 * b4 * c1 * c3 * d2 * (d4 * d4) - (2
    * 2) * a2 * a4 * b3 * b4 * c2 * c4 * d1 * d3 * d4 + (2 * 2) * a2 * a4 * b3 * b4 * c3 * c4 * d1 * d2 * d4 +
    (2 * 2) * (a3 * a3) * b2 * b4 * c1 * c2 * (d3 * d3) * d4 - (2 * 2) * (a3 * a3) * b2 * b4 * c1 * c4 * d2 *
    (d3 * d3) - (2 * 2) * (a3 * a3) * b2 * b4 * c2 * c3 * d1 * d3 * d4 + (2 * 2) * (a3 * a3) * b2 * b4 * c3 *
    c4 * d1 * d2 * d3 - (2 * 2) * a3 * a4 * (b2 * b2) * c1 * c3 * (d2 * d2) * d4 + (2 * 2) * a3 * a4 * (b2 *
    b2) * c1 * c4 * (d2 * d2) * d3 + (2 * 2) * a3 * a4 * (b2 * b2) * c2 * c3 * d1 * d2 * d4 - (2 * 2) * a3 *
    a4 * (b2 * b2) * c2 * c4 * d1 * d2 * d3 - (2 * 2) * a3 * a4 * b2 * b3 * c1 * c2 * (d3 * d3) * d4 + (2 * 2)
    * a3 * a4 * b2 * b3 * c1 * c4 * d2 * (d3 * d3) + (2 * 2) * a3 * a4 * b2 * b3 * c2 * c3 * d1 * d3 * d4 - (2
    * 2) * a3 * a4 * b2 * b3 * c3 * c4 * d1 * d2 * d3 + (2 * 2) * a3 * a4 * b2 * b4 * c1 * c2 * d3 * (d4 * d4)
    - (2 * 2) * a3 * a4 * b2 * b4 * c1 * c3 * d2 * (d4 * d4) - (2 * 2) * a3 * a4 * b2 * b4 * c2 * c4 * d1 * d3
    * d4 + (2 * 2) * a3 * a4 * b2 * b4 * c3 * c4 * d1 * d2 * d4 - (2 * 2) * (a4 * a4) * b2 * b3 * c1 * c2 * d3
    * (d4 * d4) + (2 * 2) * (a4 * a4) * b2 * b3 * c1 * c3 * d2 * (d4 * d4) + (2 * 2) * (a4 * a4) * b2 * b3 *
    c2 * c4 * d1 * d3 * d4 - (2 * 2) * (a4 * a4) * b2 * b3 * c3 * c4 * d1 * d2 * d4 + d1 * x).
(* particles_set.py:496 *)
Definition b5_num (b1 d5 b2 b3 b4 d1 d2 d3 d4 : K) : K :=
    (- b1 * d1 - b2 * d2 - b3 * d3 - b4 * d4).
Definition b5_den (b1 d5 b2 b3 b4 d1 d2 d3 d4 : K) : K :=
    d5.
(* particles_set.py:497 *)
Definition a5_num (b5 a2 a3 a4 b2 b3 b4 c1 c2 c3 c4 d1 d2 d3 d4 : K) : K :=
    b5 * (a2 * c1 * d2 - a2 * c2 * d1 + a3 * c1 * d3 - a3 * c3 * d1 + a4 * c1 * d4 - a4 * c4 * d1).
Definition a5_den (b5 a2 a3 a4 b2 b3 b4 c1 c2 c3 c4 d1 d2 d3 d4 : K) : K :=
    (b2 * c1 * d2 - b2 * c2 * d1 + b3 * c1 * d3 - b3 * c3 * d1 + b4 * c1 * d4 - b4 * c4 * d1).

(* particles_set.py:493-497 in order: the new |1>, the new |5> and the new first component of |5] *)
Definition tr5_five (l1 r2 l2 r3 l3 r4 l4 : v2 K) (d5 x : K) : result (v2 K * v2 K * K) :=
  let '(c1, d1, a2, b2, c2, d2) := (e0 l1, e1 l1, e0 r2, e1 r2, e0 l2, e1 l2) in
  let '(a3, b3, c3, d3, a4, b4, c4, d4) := (e0 r3, e1 r3, e0 l3, e1 l3, e0 r4, e1 r4, e0 l4, e1 l4) in
  rbind (divE (b1_num a2 a3 a4 b2 b3 b4 c1 c2 c3 c4 d1 d2 d3 d4 x) (b1_den a2 a3 a4 b2 b3 b4 c1 c2 c3 c4 d1 d2 d3 d4 x)) (fun b1 =>
  rbind (divE (a1_num b1 a2 a3 a4 b2 b3 b4 c1 c2 c3 c4 d1 d2 d3 d4 x) (a1_den b1 a2 a3 a4 b2 b3 b4 c1 c2 c3 c4 d1 d2 d3 d4 x)) (fun a1 =>
  rbind (divE (c5_num d5 a2 a3 a4 b2 b3 b4 c1 c2 c3 c4 d1 d2 d3 d4 x) (c5_den d5 a2 a3 a4 b2 b3 b4 c1 c2 c3 c4 d1 d2 d3 d4 x)) (fun c5 =>
  rbind (divE (b5_num b1 d5 b2 b3 b4 d1 d2 d3 d4) (b5_den b1 d5 b2 b3 b4 d1 d2 d3 d4)) (fun b5 =>
  rbind (divE (a5_num b5 a2 a3 a4 b2 b3 b4 c1 c2 c3 c4 d1 d2 d3 d4) (a5_den b5 a2 a3 a4 b2 b3 b4 c1 c2 c3 c4 d1 d2 d3 d4)) (fun a5 =>
  Ok (V2 a1 b1, V2 a5 b5, c5)))))).
End Tr5.
