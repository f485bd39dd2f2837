(* Model of the text for Mathematica, lips/particles.py:527-582.  Numbers are mpmath numbers with finite
   parts; of each part only the text that mpmath prints is modelled, mpf('...') around it being its repr. *)
From Coq Require Import Ascii String.
From Coq Require Import List ZArith Bool.
From Verif Require Import Base Str.
Import ListNotations.
Open Scope Z_scope.

(* t.startswith(old), particles.py:534-579 *)
Fixpoint begins (old t : pystr) : bool :=
  match old, t with
  | [], _ => true
  | c :: old', d :: t' => (c =? d) && begins old' t'
  | _, [] => false
  end.
(* str.replace, from left to right without overlaps; [skip] characters are already replaced; particles.py:534-579 *)
Fixpoint replaced (old new : pystr) (skip : nat) (t : pystr) : pystr :=
  match t with
  | [] => []
  | c :: t' =>
      match skip with
      | S k => replaced old new k t'
      | O => if begins old t then new ++ replaced old new (length old - 1) t' else c :: replaced old new 0 t'
      end
  end.
(* t.replace(old, new), particles.py:534-579 *)
Definition replace (old new : string) (t : pystr) : pystr := replaced (lit old) (lit new) 0 t.
(* a complex number, by the texts of its real and imaginary parts; particles.py:531-536 *)
Record cnum := CN { re_text : pystr; im_text : pystr }.
(* repr of an mpf, particles.py:532-533, 565-568 *)
Definition mpf_repr (d : pystr) : pystr := lit "mpf('" ++ d ++ lit "')".
(* repr(x)[5:-1], particles.py:532-533 *)
Definition bare_repr (d : pystr) : pystr := let r := skipn 5 (mpf_repr d) in firstn (length r - 1) r.
(* particles.py:532-534 *)
Definition entry_text (z : cnum) : pystr := replace "e" "*^" (bare_repr (re_text z) ++ lit "+" ++ bare_repr (im_text z) ++ lit "I").
(* for i, oParticle in enumerate from 1, particles.py:529-530, 541 *)
Fixpoint by_legs {A} (line : Z -> A -> pystr) (i : Z) (s : list A) : pystr :=
  match s with [] => [] | p :: s' => line i p ++ by_legs line (i + 1) s' end.
(* a line of a component, particles.py:539-540 *)
Definition lambda_line (name : string) (i : Z) (k : string) (z : cnum) : pystr := lit name ++ dec i ++ lit "," ++ lit k ++ lit "] = " ++ entry_text z ++ lit ";" ++ [10].
(* _r_sp_d_for_mathematica, particles.py:527-542 *)
Definition r_for_mathematica (s : list (cnum * cnum)) : pystr :=
  by_legs (fun i p => lambda_line "Subscript[\[Lambda], " i "1" (fst p) ++ lambda_line "Subscript[\[Lambda], " i "2" (snd p)) 1 s.
(* _l_sp_d_for_mathematica, particles.py:544-559 *)
Definition l_for_mathematica (s : list (cnum * cnum)) : pystr :=
  by_legs (fun i p => lambda_line "Subscript[\!\(\*OverscriptBox[\(\[Lambda]\), \(_\)]\), " i "1" (fst p) ++ lambda_line "Subscript[\!\(\*OverscriptBox[\(\[Lambda]\), \(_\)]\), " i "2" (snd p)) 1 s.
(* P0 and the others, particles.py:565-568 *)
Definition component (z : cnum) : pystr :=
  replace ")" "" (replace "mpf(" "" (replace "e" "*^" (mpf_repr (re_text z) ++ lit "+" ++ mpf_repr (im_text z) ++ lit "I"))).
(* particles.py:569-570 *)
Definition momentum_line (dps : Z) (i : Z) (p : cnum * cnum * (cnum * cnum)) : pystr :=
  let '((a, b), (c, d)) := p in
  replace "'" "" (replace "+-" "-" (replace "]]" "}" (replace "[[" "{"
    (lit "DeclareSpinorMomentum[" ++ dec i ++ lit ", [[SetPrecision[" ++ component a ++ lit ", " ++ dec dps ++ lit "], SetPrecision[" ++ component b ++ lit ", " ++ dec dps ++
     lit "], SetPrecision[" ++ component c ++ lit ", " ++ dec dps ++ lit "], SetPrecision[" ++ component d ++ lit ", " ++ dec dps ++ lit "] ]]]")))) ++ [10].
(* msg[:-1], particles.py:571, 581 *)
Definition but_last (t : pystr) : pystr := firstn (length t - 1) t.
(* four_momenta_for_mathematica(), particles.py:561-572; [dps] is mpmath.mp.dps *)
Definition momenta_for_mathematica (dps : Z) (s : list (cnum * cnum * (cnum * cnum))) : pystr := but_last (by_legs (momentum_line dps) 1 s).
(* La0 and the others; [w] is str(complex(x)), particles.py:575-578 *)
Definition short (w : pystr) : pystr := replace "e" "*^" (replace "j" "I" w).
(* particles.py:579-580 *)
Definition spinor_line (i : Z) (p : pystr * pystr * (pystr * pystr)) : pystr :=
  let '((a, b), (c, d)) := p in
  replace "+-" "-" (replace "]]" "}" (replace "[[" "{"
    (lit "DeclareSpinorMomentum[Sp[" ++ dec i ++ lit "], [[[[" ++ short a ++ lit "]], [[" ++ short b ++ lit "]]]], [[[[" ++ short c ++ lit ", " ++ short d ++ lit "]]]]]"))) ++ [10].
(* four_momenta_for_mathematica(as_spinors=True), particles.py:573-582 *)
Definition spinors_for_mathematica (s : list (pystr * pystr * (pystr * pystr))) : pystr := but_last (by_legs spinor_line 1 s).
