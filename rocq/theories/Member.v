(* The remaining parts of lips/algebraic_geometry: membership of covariants in an ideal
   (covariant_ideal.py:55-69), the rings (tools.py:10-26, covariant_ideal.py:21-26,
   invariant_ideal.py:18-23), the conversion ideal (tools.py:29-41) and the ideals of
   invariants (invariant_ideal.py:25-46, covariant_ideal.py:92-97).  Membership in an ideal
   and elimination of variables are computed by syngular; they are parameters here. *)
From Coq Require Import Ascii String.
From Coq Require Import List ZArith Bool.
From Verif Require Import Base Fld Particle Index Phase Compute Str Gen Ideal RatPoly RatFun Analytic.
Import ListNotations.

Section Contains.
Open Scope res_scope.
Context {K : Fld}.
Variable s0 : ps K.
(* Ideal.__contains__ for an expression *)
Variable mem : tower K (4 * length s0) -> bool.
(* Ideal.__contains__ for what is no expression *)
Variable mem_other : inv -> result bool.
(* LipsIdeal.__contains__, covariant_ideal.py:57-69; [s0] is the random point
   Particles(self.multiplicity).  Simplification: the covariant is a single invariant. *)
Definition contains (covariant : inv) : result bool :=
  s <-? make_analytical_d None s0 ;;
  match compute s covariant with
  | Ok v => Ok (forallb mem (map (fun x => (2 * 2 * x)%fld) (entries v)))
  | Err TypeError => mem_other covariant
  | Err x => Err x
  end.
End Contains.

Section Symbols.
Open Scope Z_scope.
(* sympy.symbols('a1:{}'.format(n + 1)), tools.py:13-16, 22-23 *)
Definition symbols (c n : Z) : list pystr := map (var_name c) (zrange 1 (n + 1)).
(* tuple(next(it) for it in islice(cycle(iters), k)), tools.py:17-18; a StopIteration in a
   generator becomes a RuntimeError *)
Fixpoint in_turn {A} (k : nat) (iters : list (list A)) : result (list A) :=
  match k, iters with
  | O, _ | _, [] => Ok []
  | S k', [] :: _ => Err OtherException
  | S k', (x :: it) :: rest => rmap (cons x) (in_turn k' (rest ++ [it]))
  end.
(* tools.py:10-18 *)
Definition lips_covariant_symbols (multiplicity : Z) : result (list pystr) :=
  in_turn (Z.to_nat (4 * multiplicity)) [symbols 97 multiplicity; symbols 98 multiplicity; symbols 99 multiplicity; symbols 100 multiplicity].
(* tools.py:21-26 *)
Definition lips_invariant_symbols (multiplicity : Z) : list pystr :=
  symbols 65 (multiplicity * (multiplicity - 1) / 2) ++ symbols 66 (multiplicity * (multiplicity - 1) / 2).
(* self.multiplicity of LipsIdeal from a ring, covariant_ideal.py:23-24 *)
Definition covariant_multiplicity (variables : list pystr) : Z := Z.of_nat (length variables) / 2 / 2.
(* self.multiplicity of SpinorIdeal from a ring, invariant_ideal.py:20-21.  Simplification:
   int(sqrt(x)) is the integer square root (true of floats as long as x is exactly
   represented). *)
Definition invariant_multiplicity (variables : list pystr) : Z := (1 + Z.sqrt (4 * Z.of_nat (length variables) + 1)) / 2.
End Symbols.

Section Conversion.
Open Scope res_scope.
Context {K : Fld}.
(* the generators of conversionIdeal, tools.py:29-41: the pair (A1, x) stands for the
   generator x - A1 *)
Definition conversion_generators (s0 : ps K) : result (list (pystr * tower K (4 * length s0))) :=
  s <-? make_analytical_d None s0 ;;
  let ps := pairs (Z.of_nat (length s0)) in
  a <-? inv_items 65 (c_A2 s) ps ;; b <-? inv_items 66 (c_S2 s) ps ;; Ok (a ++ b).
(* the generators of SpinorIdeal from invariants, invariant_ideal.py:25-33, and of
   invariant_slice, covariant_ideal.py:92-97: [eliminate] gets the generators of the sum of
   the two ideals and returns texts *)
Definition spinor_generators (s0 : ps K) (eliminate : list (pystr * tower K (4 * length s0)) -> list (tower K (4 * length s0)) -> list pystr)
  (invariants : list inv) (momentum_conservation : bool) : result (list pystr) :=
  c <-? conversion_generators s0 ;; g <-? lips_generators s0 invariants momentum_conservation ;; Ok (eliminate c g).
End Conversion.
