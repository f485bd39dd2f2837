(* The strings of compute themselves: the regular expressions of lips/tools.py:32-51, a
   matcher for them, the dispatch of Particles.compute (lips/particles_compute.py:77-276),
   the private methods that take chains apart and put them together again
   (lips/particles.py:436-451) and the subscripts of points by strings (lips/particles.py:392-424). *)
From Coq Require Import Ascii String.
From Coq Require Import List ZArith Bool.
From Verif Require Import Base Fld Particle Index Phase Det Arcs Compute Symm Str Masses Regex Parse.
Import ListNotations.
Open Scope Z_scope.

(* the characters of tools.py:32-51: the unicode angles, < and >, the square brackets, the bar, the
   round brackets, plus and minus *)
Definition c_la : Z := 10216. (* tools.py:41 *)
Definition c_ra : Z := 10217. (* tools.py:42 *)
Definition c_lt : Z := 60. (* tools.py:41 *)
Definition c_gt : Z := 62. (* tools.py:42 *)
Definition c_ls : Z := 91. (* tools.py:44 *)
Definition c_rs : Z := 93. (* tools.py:44 *)
Definition c_bar : Z := 124. (* tools.py:41 *)
Definition c_lp : Z := 40. (* tools.py:37 *)
Definition c_rp : Z := 41. (* tools.py:37 *)
Definition c_plus : Z := 43. (* tools.py:37 *)
Definition c_minus : Z := 45. (* tools.py:37 *)

(* tools.py:32 *)
Definition pSijk : re := RSeq (rcls [115; 83]) (RSeq (ropt (rc 95)) (RGrp 1 rnum)).
(* tools.py:33 *)
Definition pMi : re := RSeq (rcls [109; 77]) (RSeq (ropt (rc 95)) (RGrp 1 (RChr is_digit))).
(* tools.py:34; 956 is the Greek mu *)
Definition pMVar : re := RGrp 1 (RSeq (rcls [109; 77; 956]) (RSeq (ropt (rc 95)) (RSeq (RStar (RChr Masses.is_letter)) (RStar (RChr is_digit))))).
(* tools.py:35; 948 is the Greek delta *)
Definition pd5 : re := rlit [948; 53].
(* [\d\|\+\-], tools.py:36, and [\d+\+|-], tools.py:37 *)
Definition is_mid (c : Z) : bool := is_digit c || existsb (Z.eqb c) [c_bar; c_plus; c_minus].
(* tools.py:36 *)
Definition ptr5 : re :=
  RAlt (RSeq (rlit (lit "tr5_")) (RGrp 1 rnum))
       (RSeq (rlit (lit "tr5(")) (RSeq (RGrp 2 (rplus (RChr is_mid))) (rc c_rp))).
(* tools.py:37 *)
Definition ptr : re :=
  RSeq (rlit (lit "tr("))
    (RSeq (RGrp 2 (RStar (RAlt (RSeq (rc c_lp) (RSeq (rplus (RChr is_mid)) (rc c_rp))) (rplus (RChr is_mid))))) (rc c_rp)).
(* tools.py:38; 916 is the Greek Delta *)
Definition pDijk : re := RSeq (rlit [916; 95]) (RGrp 1 (RSeq rnum (RStar (RSeq (rc c_bar) rnum)))).
(* tools.py:39; 937 is the Greek Omega *)
Definition pOijk : re := RSeq (rlit [937; 95]) (RGrp 1 rnum).
(* tools.py:40; 928 is the Greek Pi *)
Definition pPijk : re := RSeq (rlit [928; 95]) (RGrp 1 rnum).
(* tools.py:41 *)
Definition pAu : re := RSeq (rcls [c_la; c_lt]) (RSeq (RGrp 1 rnum) (rc c_bar)).
(* tools.py:42 *)
Definition pAd : re := RSeq (rc c_bar) (RSeq (RGrp 1 rnum) (rcls [c_ra; c_gt])).
(* tools.py:43 *)
Definition pA2 : re := RSeq (rcls [c_la; c_lt]) (RSeq (RGrp 1 rnum) (RSeq (rc c_bar) (RSeq (RGrp 2 rnum) (rcls [c_ra; c_gt])))).
(* tools.py:44 *)
Definition pS2 : re := RSeq (rc c_ls) (RSeq (RGrp 1 rnum) (RSeq (rc c_bar) (RSeq (RGrp 2 rnum) (rc c_rs)))).
(* tools.py:45 *)
Definition pSd : re := RSeq (rc c_ls) (RSeq (RGrp 1 rnum) (rc c_bar)).
(* tools.py:46 *)
Definition pSu : re := RSeq (rc c_bar) (RSeq (RGrp 1 rnum) (rc c_rs)).
(* [\+|-], tools.py:48-51 *)
Definition is_sep (c : Z) : bool := existsb (Z.eqb c) [c_plus; c_bar; c_minus].
(* (?:\(?(?:\d+[\+|-]?)+\)?\|?)+, tools.py:48 *)
Definition nb_mid : re :=
  rplus (RSeq (ropt (rc c_lp)) (RSeq (rplus (RSeq rnum (ropt (RChr is_sep)))) (RSeq (ropt (rc c_rp)) (ropt (rc c_bar))))).
(* tools.py:48 *)
Definition pNB : re :=
  RSeq (rcls [c_lt; c_la; c_ls]) (RSeq (RGrp 1 rnum) (RSeq (rc c_bar) (RSeq (RGrp 2 nb_mid) (RSeq (rc c_bar) (RSeq (RGrp 3 rnum) (rcls [c_ra; c_rs; c_gt])))))).
(* the repeated part of the middle: numbers with one of + | - between two of them; tools.py:49-51 *)
Definition open_piece : re := RSeq rnum (RStar (RSeq (RChr is_sep) rnum)).
(* tools.py:49-51 *)
Definition open_mid : re := rplus (RAlt (RSeq (rc c_lp) (RSeq open_piece (rc c_rp))) open_piece).
(* tools.py:49 *)
Definition pNB_open_begin : re := RSeq (rc c_bar) (RSeq (RGrp 2 open_mid) (RSeq (rc c_bar) (RSeq (RGrp 3 rnum) (rcls [c_ra; c_rs])))).
(* tools.py:50 *)
Definition pNB_open_end : re := RSeq (rcls [c_la; c_ls]) (RSeq (RGrp 1 rnum) (RSeq (rc c_bar) (RSeq (RGrp 2 open_mid) (rc c_bar)))).
(* tools.py:51 *)
Definition pNB_double_open : re := RSeq (rc c_bar) (RSeq (RGrp 2 open_mid) (rc c_bar)).

(* ---- the texts between the bars ---- *)
(* text.split(sep) for a separator of one character; particles_compute.py:86, 97, 118, 186 *)
Fixpoint split (k : Z) (s : pystr) : list pystr :=
  match s with
  | [] => [[]]
  | c :: s' => if c =? k then [] :: split k s' else match split k s' with h :: t => (c :: h) :: t | [] => [[c]] end
  end.
(* .replace("(", "").replace(")", ""); particles_compute.py:97, 186 *)
Definition no_round (s : pystr) : pystr := filter (fun c => negb ((c =? c_lp) || (c =? c_rp))) s.
(* a whole number in an expression of python; particles_compute.py:98.  Simplification: 00 is not one here. *)
Definition literal (d : pystr) : option Z :=
  match d with [] => None | c :: r => if (c =? 48) && negb (length r =? 0)%nat then None else Some (number d) end.
(* +k-l...; particles_compute.py:98-101 *)
Fixpoint terms_of (fuel : nat) (s : pystr) : option (list (bool * Z)) :=
  match fuel with
  | O => None
  | S f =>
      match s with
      | [] => Some []
      | c :: s' =>
          if (c =? c_plus) || (c =? c_minus) then
            match literal (digits s'), terms_of f (skipn (length (digits s')) s') with
            | Some k, Some l => Some ((c =? c_plus, k) :: l)
            | _, _ => None
            end
          else None
      end
  end.
(* one entry as the expression that re.sub makes of it: i+j-k; particles_compute.py:98-101, 201-203.
   None if it is not of this form.  Simplification: entries that start with a sign or have several
   signs in a row (only ptr, ptr5 and pNB let some of them through) are not evaluated. *)
Definition entry_of (s : pystr) : option entry :=
  match literal (digits s), terms_of (S (length s)) (skipn (length (digits s)) s) with
  | Some k, Some l => Some (k, l)
  | _, _ => None
  end.
(* all entries; particles_compute.py:97-99 *)
Fixpoint entries_of (l : list pystr) : option (list entry) :=
  match l with
  | [] => Some []
  | t :: l' => match entry_of t, entries_of l' with Some e, Some es => Some (e :: es) | _, _ => None end
  end.
(* bc = middle.replace("(", "").replace(")", "").split("|"); particles_compute.py:97, 186, 219, 243, 261 *)
Definition middle_of (m : pystr) : option (list entry) := entries_of (split c_bar (no_round m)).
(* list(map(int, digits)): one label for each character; particles_compute.py:104, 155 *)
Definition labels_of (t : pystr) : list Z := map (fun c => c - 48) t.

(* what a text is for compute: a string of Compute.v, an error, the name of a mass, or an expression
   for _eval; particles_compute.py:84-276 *)
Inductive cls := TInv (e : inv) | TErr (x : exn) | TMass | TExpr.
(* the middle of a chain; a middle that is no expression of python is a SyntaxError; particles_compute.py:189-203 *)
Definition with_middle (m : pystr) (f : list entry -> inv) : cls := match middle_of m with Some es => TInv (f es) | None => TErr SyntaxError end.
(* a, b, c, d = abcd.split("|") if "|" in abcd else abcd; particles_compute.py:85-86.  The strings
   built in lines 93 are chains again. *)
Definition tr5_class (abcd : pystr) : cls :=
  let parts := if existsb (Z.eqb c_bar) abcd then split c_bar abcd else map (fun c => [c]) abcd in
  match parts with
  | [a; b; c; d] => match entries_of [a; b; c; d] with Some [a; b; c; d] => TInv (ITr5 a b c d) | _ => TErr SyntaxError end
  | _ => TErr ValueError
  end.
(* temp_string[0] and temp_string[-1]; particles_compute.py:190-212 *)
Definition obr_of (t : pystr) : obr := match t with c :: _ => if c =? c_la then OAng else if c =? c_ls then OSq else OLt | [] => OLt end.
(* particles_compute.py:190-212 *)
Definition cbr_of (t : pystr) : cbr := let c := last t 0 in if c =? c_ra then CAng else if c =? c_rs then CSq else CGt.
(* the tests of compute in their order, particles_compute.py:84-276 *)
Definition classify (t : pystr) : cls :=
  match search ptr5 t with Some g => tr5_class (if existsb (Z.eqb 95) t then group 1 g else group 2 g) | None =>
  match search ptr t with Some g => with_middle (group 2 g) ITr | None =>
  match search pOijk t with Some g => TInv (IOm (labels_of (group 1 g))) | None =>
  match search pPijk t with Some g => TInv (IPi (labels_of (group 1 g))) | None =>
  match search pDijk t with
  | Some g => let m := group 1 g in
      if existsb (Z.eqb c_bar) m then TInv (IDelta (map labels_of (split c_bar m))) else TInv (IDelta3 (labels_of m))
  | None =>
  match search pd5 t with Some _ => TInv Id5 | None =>
  match search pMi t with Some g => TInv (IM (number (group 1 g))) | None =>
  match search pSijk t with Some g => TInv (IS (labels_of (group 1 g))) | None =>
  match search pA2 t with Some g => TInv (IA2 (number (group 1 g)) (number (group 2 g))) | None =>
  match search pAu t with Some g => TInv (IAu (number (group 1 g))) | None =>
  match search pAd t with Some g => TInv (IAd (number (group 1 g))) | None =>
  match search pS2 t with Some g => TInv (IS2 (number (group 1 g)) (number (group 2 g))) | None =>
  match search pSu t with Some g => TInv (ISu (number (group 1 g))) | None =>
  match search pSd t with Some g => TInv (ISd (number (group 1 g))) | None =>
  match search pNB t with
  | Some g => with_middle (group 2 g) (fun es => IChain (obr_of t) (number (group 1 g)) es (number (group 3 g)) (cbr_of t))
  | None =>
  match search pNB_open_begin t with Some g => with_middle (group 2 g) (fun es => IOpenBegin es (number (group 3 g)) (cbr_of t)) | None =>
  match search pNB_open_end t with Some g => with_middle (group 2 g) (fun es => IOpenEnd (obr_of t) (number (group 1 g)) es) | None =>
  match search pNB_double_open t with Some g => with_middle (group 2 g) IDouble | None =>
  match search pMVar t with Some _ => TMass | None => TExpr
  end end end end end end end end end end end end end end end end end end end.

(* bold_digits, tools.py:56: the bold digit for each digit *)
Definition bold_digits : dict pystr := map (fun d => ([48 + d], [120782 + d])) [0; 1; 2; 3; 4; 5; 6; 7; 8; 9].
(* rsubs_dict(original_temp_string, bold_digits), particles_compute.py:82 *)
Definition unbold (t : pystr) : result pystr := rsubs_dict t bold_digits.

Section Text.
Context {K : Fld}.
Open Scope fld_scope.
Open Scope res_scope.

(* what compute returns: an array or element of Compute.v, or a number of an expression; particles_compute.py:77-276 *)
Inductive answer := AVal (v : val K) | ANum (v : value K).
(* oPs('...') in an expression must be an element of the field; particles_eval.py:167-168.
   Simplification: arrays and numbers of python in its place are not modelled (OtherException). *)
Definition as_element (r : result answer) : result K :=
  match r with Ok (AVal (VS x)) => Ok x | Ok (ANum (VElt x)) => Ok x | Ok _ => Err OtherException | Err e => Err e end.
(* Particles.compute on a text, particles_compute.py:77-276, and __call__, particles.py:86-87.  [A] are
   the masses of the point; the fuel bounds the depth of python's recursion. *)
Fixpoint compute_text (fuel : nat) (s : ps K) (A : dict (@mval K)) (t : pystr) : result answer :=
  match fuel with
  | O => Err RecursionError
  | S f =>
      t' <-? unbold t ;;
      match classify t' with
      | TInv e => rmap AVal (compute s e)
      | TErr x => Err x
      | TMass =>
          match dict_get t' A with
          | None => Err AttributeError
          | Some (MNum x) => Ok (AVal (VS x))
          | Some (MStr t'') => compute_text f s A t''
          end
      | TExpr => rmap ANum (py_eval (fun arg => as_element (compute_text f s A arg)) t)
      end
  end.

(* oPs['⟨a|'] and the other subscripts by strings, particles.py:392-400: the open spinors, otherwise
   the particle of the first digit *)
Inductive item := ISpinor (v : val K) | IParticle (p : particle K).
Definition getitem_text (s : ps K) (t : pystr) : result item := (* particles.py:393-400 *)
  match search pAu t, search pAd t, search pSu t, search pSd t with
  | None, None, None, None =>
      match filter is_digit t with
      | d :: _ => rmap IParticle (getitem s (d - 48))
      | [] => Err IndexError
      end
  | _, _, _, _ => t' <-? unbold t ;; match classify t' with TInv e => rmap ISpinor (compute s e) | _ => Err OtherException end
  end.
(* oPs['⟨a|'] = value, particles.py:408-422; other strings are ignored in silence *)
Definition setitem_text (t : pystr) (v : v2 K) : M (ps K) unit :=
  match search pAu t with Some g => on (number (group 1 g)) (assign_r_sp_u v) | None =>
  match search pAd t with Some g => on (number (group 1 g)) (assign_r_sp_d v) | None =>
  match search pSu t with Some g => on (number (group 1 g)) (assign_l_sp_u v) | None =>
  match search pSd t with Some g => on (number (group 1 g)) (assign_l_sp_d v) | None => ret tt
  end end end end.
End Text.
Arguments answer K : clear implicits. Arguments item K : clear implicits.

(* _lNB_to_string, particles.py:436-443: the parts with their round brackets *)
Definition lNB_to_string (start : pystr) (s : Z) (ms : list (list Z)) (e : Z) (fin : pystr) : pystr :=
  start ++ dec s ++ [c_bar]
  ++ removelast (concat (map (fun m => [c_lp] ++ removelast (concat (map (fun k => dec k ++ [c_plus]) m)) ++ [c_rp] ++ [c_bar]) ms))
  ++ [c_bar] ++ dec e ++ fin.
(* int(text) for a text of digits, ValueError otherwise; particles.py:449 *)
Definition int_of (t : pystr) : result Z := if forallb is_digit t && negb (length t =? 0)%nat then Ok (number t) else Err ValueError.
(* _get_lNB, particles.py:445-451: all labels, the first, the middle ones and the last *)
Definition get_lNB (t : pystr) : result (list Z * Z * list (list Z) * Z) :=
  match search pNB t with
  | None => Err IndexError
  | Some g =>
      rbind (rmapM (fun e => rmapM int_of (split c_plus (no_round e))) (split c_bar (group 2 g))) (fun ms =>
      Ok (number (group 1 g) :: concat ms ++ [number (group 3 g)], number (group 1 g), ms, number (group 3 g)))
  end.
