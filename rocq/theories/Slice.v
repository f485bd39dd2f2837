(* Model of Particles.univariate_slice and bivariate_slice with the covariant algorithm,
   lips/particles_slices.py:17-47 and 59-93.
   The unknowns of the equations are given values: xs, ys are what ideal.point_on_variety
   returned (particles_slices.py:42-46), [equations] are the coefficients of the powers of t
   after these values have been inserted.  Simplifications: the preparation of the point
   (_singular_variety, particles_slices.py:25,68) and the search for a solution are not
   modelled; the constraints are polynomials of brackets of two legs; the generic algorithm
   (particles_slices.py:49-54) is not modelled. *)
From Coq Require Import List ZArith Bool.
From Verif Require Import Base Fld Particle Index Phase Compute.
Import ListNotations.

(* polynomials as lists of coefficients, lowest first: sympy.poly, particles_slices.py:34-36 *)
Section Poly.
Context {R : Type} (z : R) (add mul : R -> R -> R).
(* particles_slices.py:34-36 *)
Fixpoint padd (p q : list R) : list R :=
  match p, q with
  | [], _ => q
  | _, [] => p
  | a :: p', b :: q' => add a b :: padd p' q'
  end.
(* particles_slices.py:34-36 *)
Fixpoint pmul (p q : list R) : list R :=
  match p with
  | [] => []
  | a :: p' => padd (map (mul a) q) (z :: pmul p' q)
  end.
End Poly.

Section Slice.
Context {K : Fld}.
Open Scope fld_scope.
Open Scope res_scope.

(* constraints: polynomials of the brackets, particles_slices.py:35 *)
Inductive cexpr := CAng2 (a b : Z) | CSq2 (a b : Z) | CNum (c : K) | CAdd (e f : cexpr) | CMul (e f : cexpr).
Section Eval.
Context {R : Type} (num : K -> R) (add mul : R -> R -> R) (ang sq : Z -> Z -> result R).
(* particles_slices.py:35 *)
Fixpoint ceval (e : cexpr) : result R :=
  match e with
  | CAng2 a b => ang a b
  | CSq2 a b => sq a b
  | CNum c => Ok (num c)
  | CAdd e f => x <-? ceval e ;; y <-? ceval f ;; Ok (add x y)
  | CMul e f => x <-? ceval e ;; y <-? ceval f ;; Ok (mul x y)
  end.
End Eval.

(* polynomials in t; particles_slices.py:28 *)
Definition poly := list K.
(* particles_slices.py:34-36 *)
Definition pplus : poly -> poly -> poly := padd fadd.
(* particles_slices.py:34-36 *)
Definition ptimes : poly -> poly -> poly := pmul 0 fadd fmul.
(* particles_slices.py:34-36 *)
Definition pneg : poly -> poly := map fopp.
(* a spinor with polynomial entries *)
Definition pspinor := (poly * poly)%type.
(* oP.r_sp_d + t * xs[i] * oPShift.r_sp_d, particles_slices.py:31-32 *)
Definition shifted (v : v2 K) (x : K) (eta : v2 K) : pspinor := ([e0 v; x * e0 eta], [e1 v; x * e1 eta]).
(* all particles, each with its two spinors; None: no spinors to add to *)
Definition shift_all (s : ps K) (xs ys : list K) (er el : v2 K) : result (list (pspinor * pspinor)) :=
  rmapM (fun pxy => match r_d (fst pxy), l_d (fst pxy) with
                    | Some r, Some l => Ok (shifted r (fst (snd pxy)) er, shifted l (snd (snd pxy)) el)
                    | _, _ => Err TypeError
                    end) (combine s (combine xs ys)).
(* the four entries of the product l_sp_u r_sp_u (particle.py:422-423) of one leg, and their
   sums, self.total_mom.flatten(), particles_slices.py:34 *)
Definition leg_entries (x : pspinor * pspinor) : list poly :=
  let '((r0, r1), (l0, l1)) := x in [ptimes l1 r1; pneg (ptimes l1 r0); pneg (ptimes l0 r1); ptimes l0 r0].
Definition sum_entries (l : list (pspinor * pspinor)) : list poly :=
  fold_right (fun x acc => map (fun ab => pplus (fst ab) (snd ab)) (combine (leg_entries x) acc)) [[]; []; []; []] l.
(* the brackets of two legs (particles_compute.py:159-161,171-173) *)
Definition pang (l : list (pspinor * pspinor)) (a b : Z) : result poly :=
  x <-? getitem l a ;; y <-? getitem l b ;;
  Ok (pplus (ptimes (snd (fst x)) (fst (fst y))) (pneg (ptimes (fst (fst x)) (snd (fst y))))).
Definition psq (l : list (pspinor * pspinor)) (a b : Z) : result poly :=
  x <-? getitem l a ;; y <-? getitem l b ;;
  Ok (pplus (ptimes (fst (snd x)) (snd (snd y))) (pneg (ptimes (snd (snd x)) (fst (snd y))))).
(* particles_slices.py:34-36 *)
Definition equations (s : ps K) (xs ys : list K) (er el : v2 K) (constraints : list cexpr) : result (list K) :=
  l <-? shift_all s xs ys er el ;;
  cs <-? rmapM (ceval (fun c => [c]) pplus ptimes (pang l) (psq l)) constraints ;;
  Ok (concat (sum_entries l ++ cs)).
(* the point for one value of t: subs of the unknowns and of t, particles_slices.py:47 and
   particles.py:235-269 *)
Definition assignR (m : PM (K := K) unit) (p : particle K) : result (particle K) :=
  match m p with (q, Ok _) => Ok q | (_, Err e) => Err e end.
Definition slice_at (t : K) (s : ps K) (xs ys : list K) (er el : v2 K) : result (ps K) :=
  rmapM (fun pxy => match r_d (fst pxy), l_d (fst pxy) with
                    | Some r, Some l =>
                        p <-? assignR (assign_r_sp_d (vadd r (vscale (t * fst (snd pxy)) er))) (fst pxy) ;;
                        assignR (assign_l_sp_d (vadd l (vscale (t * snd (snd pxy)) el))) p
                    | _, _ => Err TypeError
                    end) (combine s (combine xs ys)).

(* ---- two variables: polynomials in t1 whose coefficients are polynomials in t2 ----; particles_slices.py:72-73 *)
Definition poly2 := list poly.
(* particles_slices.py:80-82 *)
Definition pplus2 : poly2 -> poly2 -> poly2 := padd pplus.
(* particles_slices.py:80-82 *)
Definition ptimes2 : poly2 -> poly2 -> poly2 := pmul [] pplus ptimes.
(* particles_slices.py:80-82 *)
Definition pneg2 : poly2 -> poly2 := map pneg.
(* v + t1 x1 eta1 + t2 x2 eta2; particles_slices.py:76-78 *)
Definition shifted2 (v : v2 K) (x1 : K) (eta1 : v2 K) (x2 : K) (eta2 : v2 K) : poly2 * poly2 :=
  ([[e0 v; x2 * e0 eta2]; [x1 * e0 eta1]], [[e1 v; x2 * e1 eta2]; [x1 * e1 eta1]]).
(* particles_slices.py:80 *)
Definition leg_entries2 (x : (poly2 * poly2) * (poly2 * poly2)) : list poly2 :=
  let '((r0, r1), (l0, l1)) := x in [ptimes2 l1 r1; pneg2 (ptimes2 l1 r0); pneg2 (ptimes2 l0 r1); ptimes2 l0 r0].
(* particles_slices.py:80 *)
Definition sum_entries2 (l : list ((poly2 * poly2) * (poly2 * poly2))) : list poly2 :=
  fold_right (fun x acc => map (fun ab => pplus2 (fst ab) (snd ab)) (combine (leg_entries2 x) acc)) [[]; []; []; []] l.
(* the unknowns of one leg *)
Record unknowns := U { ux1 : K; uy1 : K; ux2 : K; uy2 : K }.
(* particles_slices.py:76-78; the last term of the second line has xs2 and not ys2 *)
Definition shift_all2 (s : ps K) (us : list unknowns) (er1 el1 er2 el2 : v2 K) : result (list ((poly2 * poly2) * (poly2 * poly2))) :=
  rmapM (fun pu => match r_d (fst pu), l_d (fst pu) with
                   | Some r, Some l => let u := snd pu in Ok (shifted2 r (ux1 u) er1 (ux2 u) er2, shifted2 l (uy1 u) el1 (ux2 u) el2)
                   | _, _ => Err TypeError
                   end) (combine s us).
(* particles_slices.py:80-82, without constraints *)
Definition equations2 (s : ps K) (us : list unknowns) (er1 el1 er2 el2 : v2 K) : result (list K) :=
  rmap (fun l => concat (concat (sum_entries2 l))) (shift_all2 s us er1 el1 er2 el2).
(* particles_slices.py:93 and particles.py:235-269 *)
Definition slice_at2 (t1 t2 : K) (s : ps K) (us : list unknowns) (er1 el1 er2 el2 : v2 K) : result (ps K) :=
  rmapM (fun pu => match r_d (fst pu), l_d (fst pu) with
                   | Some r, Some l => let u := snd pu in
                       p <-? assignR (assign_r_sp_d (vadd r (vadd (vscale (t1 * ux1 u) er1) (vscale (t2 * ux2 u) er2)))) (fst pu) ;;
                       assignR (assign_l_sp_d (vadd l (vadd (vscale (t1 * uy1 u) el1) (vscale (t2 * ux2 u) el2)))) p
                   | _, _ => Err TypeError
                   end) (combine s us).
End Slice.
