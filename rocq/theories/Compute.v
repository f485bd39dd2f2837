(* Model of lips/particles_compute.py: Particles.compute, with the string already
   split into its parts (Parse.v treats the strings themselves). *)
From Coq Require Import List ZArith Bool.
From Verif Require Import Base Fld Particle Index Phase Det Arcs.
Import ListNotations.

(* the character that opens a chain: the unicode angle, '<' or '['; particles_compute.py:159-267 *)
Inductive obr := OAng | OLt | OSq.
(* the character that closes it; particles_compute.py:159-267 *)
Inductive cbr := CAng | CGt | CSq.
(* one entry between two bars: i, i+j, i-j+k, (i+j), ...; true is '+', false is '-' *)
Definition entry := (Z * list (bool * Z))%type.

(* the strings compute understands, in the order in which it tries them
   (particles_compute.py:84-273).  Simplification: names of masses (pMVar, lines
   269-273) and arithmetic expressions (particles_compute.py:276) are in Masses.v and Parse.v. *)
Inductive inv :=
| ITr5 (a b c d : entry)                        (* tr5_ijkl, tr5(a|b|c|d) *)
| ITr (es : list entry)                         (* tr(a|b|...) *)
| IOm (ijk : list Z)                            (* Omega_ijk *)
| IPi (ijk : list Z)                            (* Pi_ijk *)
| IDelta (corners : list (list Z))              (* Delta_ij|kl|..., at least one bar *)
| IDelta3 (ijk : list Z)                        (* Delta_ijk, deprecated shorthand *)
| Id5                                           (* delta5 *)
| IM (i : Z)                                    (* m_i *)
| IS (ijk : list Z)                             (* s_ijk *)
| IA2 (a b : Z)                                 (* <a|b> *)
| IAu (a : Z) | IAd (b : Z)                     (* <a|   |b> *)
| IS2 (a b : Z)                                 (* [a|b] *)
| ISu (a : Z) | ISd (b : Z)                     (* |a]   [b| *)
| IChain (o : obr) (a : Z) (es : list entry) (d : Z) (c : cbr)
| IOpenBegin (es : list entry) (d : Z) (c : cbr)
| IOpenEnd (o : obr) (a : Z) (es : list entry)
| IDouble (es : list entry).

Section Compute.
Context {K : Fld}.
Open Scope fld_scope.
Open Scope res_scope.

(* what compute returns: a number, a (1,2) row, a (2,1) column or a (2,2) array.
   as_scalar_if_scalar (particles_compute.py:28-41) is what turns a (1,1) array into a number. *)
Inductive val := VS (x : K) | VRow (v : v2 K) | VCol (v : v2 K) | VMat (m : m2 K).

(* a value that is a number, particles_compute.py:28-41 *)
Definition scalar (v : result val) : result K :=
  match v with Ok (VS x) => Ok x | Ok _ => Err TypeError | Err e => Err e end.

(* self[k].r2_sp / .r2_sp_b *)
Definition mom (b : bool) (s : ps K) (k : Z) : result (m2 K) :=
  rmap (fun p => if b then r2b p else r2 p) (getitem s k).
(* re.sub of the legs of one entry and eval, particles_compute.py:98-101, 201-203 etc. *)
Fixpoint entry_rest (b : bool) (s : ps K) (acc : m2 K) (l : list (bool * Z)) : result (m2 K) :=
  match l with
  | [] => Ok acc
  | (sg, k) :: l' => m <-? mom b s k ;;
      entry_rest b s (if sg then madd acc m else msub acc m) l'
  end.
Definition entry_val (b : bool) (s : ps K) (e : entry) : result (m2 K) :=
  m <-? mom b s (fst e) ;; entry_rest b s m (snd e).
(* " @ ".join(middle): alternating r2_sp_b / r2_sp, beginning with r2_sp_b if b; particles_compute.py:98-101, 201-203 *)
Fixpoint mid_rest (b : bool) (s : ps K) (acc : m2 K) (es : list entry) : result (m2 K) :=
  match es with
  | [] => Ok acc
  | e :: es' => m <-? entry_val b s e ;; mid_rest (negb b) s (mmul acc m) es'
  end.
(* eval of an empty string is a SyntaxError *)
Definition middle (b : bool) (s : ps K) (es : list entry) : result (m2 K) :=
  match es with
  | [] => Err SyntaxError
  | e :: es' => m <-? entry_val b s e ;; mid_rest (negb b) s m es'
  end.

(* sum([self[_i].r2_sp for _i in indices]): None for the empty list, whose sum is the
   number 0 and not an array *)
Definition mom_sum (b : bool) (s : ps K) (l : list Z) : result (m2 K) :=
  match l with
  | [] => Err AttributeError
  | _ => ms <-? rmapM (mom b s) l ;; Ok (msum ms)
  end.

(* particles_compute.py:153-157 *)
Definition c_S (s : ps K) (l : list Z) : result K := m <-? mom_sum false s l ;; Ok (det2 m).

(* particles_compute.py:183-215: the chain.  The check of the brackets compares characters: '<' is
   neither the unicode angle nor '[', so it passes every check and takes the last
   branch; '>' is not the unicode angle either. *)
Definition bracket_ok (o : obr) (n : nat) (c : cbr) : bool :=
  match o with
  | OAng => if Nat.even n then match c with CAng => true | _ => false end
            else match c with CSq => true | _ => false end
  | OSq => if Nat.even n then match c with CSq => true | _ => false end
           else match c with CAng => true | _ => false end
  | OLt => true
  end.
Definition c_chain (s : ps K) (o : obr) (a : Z) (es : list entry) (d : Z) (c : cbr) : result K :=
  if negb (bracket_ok o (length es) c) then Err SyntaxError else
  pa <-? getitem s a ;;
  row <-? (match o with
           | OAng => m <-? middle true s es ;; v <-? need_r (r_u pa) ;; Ok (vm v m)
           | _ => m <-? middle false s es ;; v <-? need_r (l_d pa) ;; Ok (vm v m)
           end) ;;
  pd <-? getitem s d ;;
  col <-? (match c with CAng => need_r (r_d pd) | _ => need_r (l_u pd) end) ;;
  Ok (vdot row col).

(* particles_compute.py:217-238 *)
Definition c_open_begin (s : ps K) (es : list entry) (d : Z) (c : cbr) : result (v2 K) :=
  let b := match c with
           | CAng => Nat.even (length es)
           | CSq => Nat.odd (length es)
           | CGt => false
           end in
  m <-? middle b s es ;;
  pd <-? getitem s d ;;
  col <-? (match c with CAng => need_r (r_d pd) | _ => need_r (l_u pd) end) ;;
  Ok (mv m col).
(* particles_compute.py:240-256 *)
Definition c_open_end (s : ps K) (o : obr) (a : Z) (es : list entry) : result (v2 K) :=
  pa <-? getitem s a ;;
  match o with
  | OAng => m <-? middle true s es ;; v <-? need_r (r_u pa) ;; Ok (vm v m)
  | _ => m <-? middle false s es ;; v <-? need_r (l_d pa) ;; Ok (vm v m)
  end.

(* len(a) == 1 in particles_compute.py:88: the entry is written with a single character *)
Definition one_char (e : entry) : bool :=
  match snd e with [] => (0 <=? fst e)%Z && (fst e <=? 9)%Z | _ => false end.
(* particles_compute.py:84-93 *)
Fixpoint tr5_rotate (k : nat) (a b c d : entry) : result (entry * entry * entry * entry) :=
  match k with
  | O => Err NotImplementedError
  | S k' => if one_char a then Ok (a, b, c, d) else tr5_rotate k' b c d a
  end.
Definition c_tr5 (s : ps K) (a b c d : entry) : result K :=
  r <-? tr5_rotate 4 a b c d ;;
  let '(a, b, c, d) := r in
  x <-? c_chain s OSq (fst a) [b; c; d] (fst a) CAng ;;
  y <-? c_chain s OAng (fst a) [b; c; d] (fst a) CSq ;;
  Ok (x - y).

(* particles_compute.py:117-126 *)
Definition c_delta (s : ps K) (corners : list (list Z)) : result K :=
  ms <-? rmapM (mom_sum false s) corners ;;
  mbs <-? rmapM (mom_sum true s) corners ;;
  let n := length corners in
  let G : mat K := fun i j => mtr (mmul (nth i ms mzero) (nth j mbs mzero)) / 2 in
  Ok (alt n * det (n - 1) G).
(* particles_compute.py:127-130; fuel for the arcs *)
Definition c_delta3 (s : ps K) (ijk : list Z) : result K :=
  arc <-? arcs (S (length s)) (zlen s) ijk ;;
  let '(l0, l1, l2) := arc in
  m1 <-? mom_sum false s l0 ;;
  m2' <-? mom_sum true s l1 ;;
  let x := mtr (mmul m1 m2') / 2 in
  Ok (x * x - det2 m1 * det2 m2').

(* particles_compute.py:103-109 *)
Definition c_Omega (s : ps K) (ijk : list Z) : result K :=
  arc <-? arcs (S (length s)) (zlen s) ijk ;;
  let '(l0, l1, l2) := arc in
  s2 <-? c_S s l2 ;; s1 <-? c_S s l1 ;; s0 <-? c_S s l0 ;;
  t <-? (match l0 with x :: _ => c_S s (l2 ++ [x]) | [] => Err IndexError end) ;;
  Ok (2 * s2 * s1 - (s2 + s1 - s0) * t).
(* particles_compute.py:111-115 *)
Definition c_Pi (s : ps K) (ijk : list Z) : result K :=
  arc <-? arcs (S (length s)) (zlen s) ijk ;;
  let '(l0, l1, l2) := arc in
  match l0 with
  | x :: y :: _ => a <-? c_S s (l2 ++ [x]) ;; b <-? c_S s (l2 ++ [y]) ;; Ok (a - b)
  | _ => Err IndexError
  end.
(* particles_compute.py:132-147 *)
Definition c_delta5 (s : ps K) : result K :=
  a <-? c_S s [1; 2]%Z ;; b <-? c_S s [2; 3]%Z ;; c <-? c_S s [3; 4]%Z ;;
  d <-? c_S s [4; 5]%Z ;; e <-? c_S s [5; 1]%Z ;;
  Ok (2 * a * b * c * d + 2 * a * b * c * e + 2 * a * b * d * e - 2 * a * b * b * c +
      2 * a * c * d * e - 2 * a * d * e * e - 2 * a * a * b * e + a * a * b * b +
      a * a * e * e + 2 * b * c * d * e - 2 * b * c * c * d + b * b * c * c -
      2 * c * d * d * e + c * c * d * d + d * d * e * e).

(* particles_compute.py:95-101 *)
Definition c_tr (s : ps K) (es : list entry) : result K :=
  m <-? middle true s es ;; Ok (mtr m).

(* particles_compute.py:76-267.  Simplification: s, Omega, Pi, Delta3 use one-digit labels in the
   string; here they are lists of labels, the digits are Parse.v's business. *)
Definition compute (s : ps K) (e : inv) : result val :=
  match e with
  | ITr5 a b c d => rmap VS (c_tr5 s a b c d)
  | ITr es => rmap VS (c_tr s es)
  | IOm ijk => rmap VS (c_Omega s ijk)
  | IPi ijk => rmap VS (c_Pi s ijk)
  | IDelta cs => rmap VS (c_delta s cs)
  | IDelta3 ijk => rmap VS (c_delta3 s ijk)
  | Id5 => rmap VS (c_delta5 s)
  | IM i => rmap VS (c_S s [i])
  | IS l => rmap VS (c_S s l)
  | IA2 a b => rmap VS (c_A2 s a b)
  | IAu a => rmap VRow (p <-? getitem s a ;; need_r (r_u p))
  | IAd b => rmap VCol (p <-? getitem s b ;; need_r (r_d p))
  | IS2 a b => rmap VS (c_S2 s a b)
  | ISu a => rmap VCol (p <-? getitem s a ;; need_r (l_u p))
  | ISd b => rmap VRow (p <-? getitem s b ;; need_r (l_d p))
  | IChain o a es d c => rmap VS (c_chain s o a es d c)
  | IOpenBegin es d c => rmap VCol (c_open_begin s es d c)
  | IOpenEnd o a es => rmap VRow (c_open_end s o a es)
  | IDouble es => rmap VMat (middle true s es)
  end.
End Compute.
Arguments val K : clear implicits.
