(* The text of the two closed formulas for s_ijk and Delta_ijk,
   lips/hardcoded_limits/DoubleCollinearLimit_D_and_S_a.py and DoubleCollinearLimit_D_and_S_e.py.
   Each is one line of python; the parts that occur several times are written once, and the
   lines are broken. *)
From Coq Require Import Ascii String.
From Coq Require Import List ZArith.
From Verif Require Import Base Str.
Import ListNotations.

(* a long line in pieces (DoubleCollinearLimit_D_and_S_e.py:4) *)
Definition lines (l : list string) : pystr := flat_map lit l.
(* twice in DoubleCollinearLimit_D_and_S_e.py:4, eight times in DoubleCollinearLimit_D_and_S_a.py:4 *)
Definition text_A : pystr := lines [
"-b**2*d**4*g**2*j**2*k**2+2*b**2*c*d**3*g*h*j**2*k**2-2*b*d**3*f*g**2*h*j**2*k**2";
"-b**2*c**2*d**2*h**2*j**2*k**2+4*b*c*d**2*f*g*h**2*j**2*k**2-d**2*f**2*g**2*h**2*j**2*k**2";
"-2*b*c**2*d*f*h**3*j**2*k**2+2*c*d*f**2*g*h**3*j**2*k**2-c**2*f**2*h**4*j**2*k**2+2*b**2*c*d**3*g**2*j**2*k*l";
"+2*b*d**3*f*g**3*j**2*k*l-4*b**2*c**2*d**2*g*h*j**2*k*l-2*b*c*d**2*f*g**2*h*j**2*k*l";
"+2*d**2*f**2*g**3*h*j**2*k*l+2*b**2*c**3*d*h**2*j**2*k*l-2*b*c**2*d*f*g*h**2*j**2*k*l";
"-4*c*d*f**2*g**2*h**2*j**2*k*l+2*b*c**3*f*h**3*j**2*k*l+2*c**2*f**2*g*h**3*j**2*k*l";
"-b**2*c**2*d**2*g**2*j**2*l**2-2*b*c*d**2*f*g**3*j**2*l**2-d**2*f**2*g**4*j**2*l**2";
"+2*b**2*c**3*d*g*h*j**2*l**2+4*b*c**2*d*f*g**2*h*j**2*l**2+2*c*d*f**2*g**3*h*j**2*l**2";
"-b**2*c**4*h**2*j**2*l**2-2*b*c**3*f*g*h**2*j**2*l**2-c**2*f**2*g**2*h**2*j**2*l**2-2*b**2*d**4*g**2*j*k*n*o";
"+4*b**2*c*d**3*g*h*j*k*n*o-4*b*d**3*f*g**2*h*j*k*n*o-2*b**2*c**2*d**2*h**2*j*k*n*o+8*b*c*d**2*f*g*h**2*j*k*n*o";
"-2*d**2*f**2*g**2*h**2*j*k*n*o-4*b*c**2*d*f*h**3*j*k*n*o+4*c*d*f**2*g*h**3*j*k*n*o-2*c**2*f**2*h**4*j*k*n*o";
"+2*b**2*c*d**3*g**2*j*l*n*o+2*b*d**3*f*g**3*j*l*n*o-4*b**2*c**2*d**2*g*h*j*l*n*o-2*b*c*d**2*f*g**2*h*j*l*n*o";
"+2*d**2*f**2*g**3*h*j*l*n*o+2*b**2*c**3*d*h**2*j*l*n*o-2*b*c**2*d*f*g*h**2*j*l*n*o";
"-4*c*d*f**2*g**2*h**2*j*l*n*o+2*b*c**3*f*h**3*j*l*n*o+2*c**2*f**2*g*h**3*j*l*n*o-2*b*d**3*g**2*j**2*k*l*n*o";
"+4*b*c*d**2*g*h*j**2*k*l*n*o-2*d**2*f*g**2*h*j**2*k*l*n*o-2*b*c**2*d*h**2*j**2*k*l*n*o";
"+4*c*d*f*g*h**2*j**2*k*l*n*o-2*c**2*f*h**3*j**2*k*l*n*o+2*b*c*d**2*g**2*j**2*l**2*n*o";
"+2*d**2*f*g**3*j**2*l**2*n*o-4*b*c**2*d*g*h*j**2*l**2*n*o-4*c*d*f*g**2*h*j**2*l**2*n*o";
"+2*b*c**3*h**2*j**2*l**2*n*o+2*c**2*f*g*h**2*j**2*l**2*n*o-b**2*d**4*g**2*n**2*o**2";
"+2*b**2*c*d**3*g*h*n**2*o**2-2*b*d**3*f*g**2*h*n**2*o**2-b**2*c**2*d**2*h**2*n**2*o**2";
"+4*b*c*d**2*f*g*h**2*n**2*o**2-d**2*f**2*g**2*h**2*n**2*o**2-2*b*c**2*d*f*h**3*n**2*o**2";
"+2*c*d*f**2*g*h**3*n**2*o**2-c**2*f**2*h**4*n**2*o**2-2*b*d**3*g**2*j*l*n**2*o**2+4*b*c*d**2*g*h*j*l*n**2*o**2";
"-2*d**2*f*g**2*h*j*l*n**2*o**2-2*b*c**2*d*h**2*j*l*n**2*o**2+4*c*d*f*g*h**2*j*l*n**2*o**2";
"-2*c**2*f*h**3*j*l*n**2*o**2-d**2*g**2*j**2*l**2*n**2*o**2+2*c*d*g*h*j**2*l**2*n**2*o**2";
"-c**2*h**2*j**2*l**2*n**2*o**2+2*b**2*c*d**3*g**2*j*k*n*p+2*b*d**3*f*g**3*j*k*n*p-4*b**2*c**2*d**2*g*h*j*k*n*p";
"-2*b*c*d**2*f*g**2*h*j*k*n*p+2*d**2*f**2*g**3*h*j*k*n*p+2*b**2*c**3*d*h**2*j*k*n*p-2*b*c**2*d*f*g*h**2*j*k*n*p";
"-4*c*d*f**2*g**2*h**2*j*k*n*p+2*b*c**3*f*h**3*j*k*n*p+2*c**2*f**2*g*h**3*j*k*n*p+2*b*d**3*g**2*j**2*k**2*n*p";
"-4*b*c*d**2*g*h*j**2*k**2*n*p+2*d**2*f*g**2*h*j**2*k**2*n*p+2*b*c**2*d*h**2*j**2*k**2*n*p";
"-4*c*d*f*g*h**2*j**2*k**2*n*p+2*c**2*f*h**3*j**2*k**2*n*p-2*b**2*c**2*d**2*g**2*j*l*n*p";
"-4*b*c*d**2*f*g**3*j*l*n*p-2*d**2*f**2*g**4*j*l*n*p+4*b**2*c**3*d*g*h*j*l*n*p+8*b*c**2*d*f*g**2*h*j*l*n*p";
"+4*c*d*f**2*g**3*h*j*l*n*p-2*b**2*c**4*h**2*j*l*n*p-4*b*c**3*f*g*h**2*j*l*n*p-2*c**2*f**2*g**2*h**2*j*l*n*p";
"-2*b*c*d**2*g**2*j**2*k*l*n*p-2*d**2*f*g**3*j**2*k*l*n*p+4*b*c**2*d*g*h*j**2*k*l*n*p";
"+4*c*d*f*g**2*h*j**2*k*l*n*p-2*b*c**3*h**2*j**2*k*l*n*p-2*c**2*f*g*h**2*j**2*k*l*n*p";
"+2*b**2*c*d**3*g**2*n**2*o*p+2*b*d**3*f*g**3*n**2*o*p-4*b**2*c**2*d**2*g*h*n**2*o*p";
"-2*b*c*d**2*f*g**2*h*n**2*o*p+2*d**2*f**2*g**3*h*n**2*o*p+2*b**2*c**3*d*h**2*n**2*o*p";
"-2*b*c**2*d*f*g*h**2*n**2*o*p-4*c*d*f**2*g**2*h**2*n**2*o*p+2*b*c**3*f*h**3*n**2*o*p";
"+2*c**2*f**2*g*h**3*n**2*o*p+2*b*d**3*g**2*j*k*n**2*o*p-4*b*c*d**2*g*h*j*k*n**2*o*p";
"+2*d**2*f*g**2*h*j*k*n**2*o*p+2*b*c**2*d*h**2*j*k*n**2*o*p-4*c*d*f*g*h**2*j*k*n**2*o*p";
"+2*c**2*f*h**3*j*k*n**2*o*p+2*b*c*d**2*g**2*j*l*n**2*o*p+2*d**2*f*g**3*j*l*n**2*o*p";
"-4*b*c**2*d*g*h*j*l*n**2*o*p-4*c*d*f*g**2*h*j*l*n**2*o*p+2*b*c**3*h**2*j*l*n**2*o*p";
"+2*c**2*f*g*h**2*j*l*n**2*o*p+2*d**2*g**2*j**2*k*l*n**2*o*p-4*c*d*g*h*j**2*k*l*n**2*o*p";
"+2*c**2*h**2*j**2*k*l*n**2*o*p-b**2*c**2*d**2*g**2*n**2*p**2-2*b*c*d**2*f*g**3*n**2*p**2";
"-d**2*f**2*g**4*n**2*p**2+2*b**2*c**3*d*g*h*n**2*p**2+4*b*c**2*d*f*g**2*h*n**2*p**2";
"+2*c*d*f**2*g**3*h*n**2*p**2-b**2*c**4*h**2*n**2*p**2-2*b*c**3*f*g*h**2*n**2*p**2";
"-c**2*f**2*g**2*h**2*n**2*p**2-2*b*c*d**2*g**2*j*k*n**2*p**2-2*d**2*f*g**3*j*k*n**2*p**2";
"+4*b*c**2*d*g*h*j*k*n**2*p**2+4*c*d*f*g**2*h*j*k*n**2*p**2-2*b*c**3*h**2*j*k*n**2*p**2";
"-2*c**2*f*g*h**2*j*k*n**2*p**2-d**2*g**2*j**2*k**2*n**2*p**2+2*c*d*g*h*j**2*k**2*n**2*p**2";
"-c**2*h**2*j**2*k**2*n**2*p**2"]%string.
(* the start of the numerator, DoubleCollinearLimit_D_and_S_e.py:4 *)
Definition text_B : pystr := lines [
"-2*b**2*d**4*f*g**2*i*j*k**2+4*b**2*c*d**3*f*g*h*i*j*k**2-4*b*d**3*f**2*g**2*h*i*j*k**2";
"-2*b**2*c**2*d**2*f*h**2*i*j*k**2+8*b*c*d**2*f**2*g*h**2*i*j*k**2-2*d**2*f**3*g**2*h**2*i*j*k**2";
"-4*b*c**2*d*f**2*h**3*i*j*k**2+4*c*d*f**3*g*h**3*i*j*k**2-2*c**2*f**3*h**4*i*j*k**2";
"+4*b**2*c*d**3*f*g**2*i*j*k*l+4*b*d**3*f**2*g**3*i*j*k*l-8*b**2*c**2*d**2*f*g*h*i*j*k*l";
"-4*b*c*d**2*f**2*g**2*h*i*j*k*l+4*d**2*f**3*g**3*h*i*j*k*l+4*b**2*c**3*d*f*h**2*i*j*k*l";
"-4*b*c**2*d*f**2*g*h**2*i*j*k*l-8*c*d*f**3*g**2*h**2*i*j*k*l+4*b*c**3*f**2*h**3*i*j*k*l";
"+4*c**2*f**3*g*h**3*i*j*k*l-2*b**2*c**2*d**2*f*g**2*i*j*l**2-4*b*c*d**2*f**2*g**3*i*j*l**2";
"-2*d**2*f**3*g**4*i*j*l**2+4*b**2*c**3*d*f*g*h*i*j*l**2+8*b*c**2*d*f**2*g**2*h*i*j*l**2";
"+4*c*d*f**3*g**3*h*i*j*l**2-2*b**2*c**4*f*h**2*i*j*l**2-4*b*c**3*f**2*g*h**2*i*j*l**2";
"-2*c**2*f**3*g**2*h**2*i*j*l**2-2*b**2*d**4*f*g**2*j*k*m*o+4*b**2*c*d**3*f*g*h*j*k*m*o";
"-4*b*d**3*f**2*g**2*h*j*k*m*o-2*b**2*c**2*d**2*f*h**2*j*k*m*o+8*b*c*d**2*f**2*g*h**2*j*k*m*o";
"-2*d**2*f**3*g**2*h**2*j*k*m*o-4*b*c**2*d*f**2*h**3*j*k*m*o+4*c*d*f**3*g*h**3*j*k*m*o-2*c**2*f**3*h**4*j*k*m*o";
"-2*b**2*d**4*g*j**2*k**2*m*o+2*b**2*c*d**3*h*j**2*k**2*m*o-4*b*d**3*f*g*h*j**2*k**2*m*o";
"+4*b*c*d**2*f*h**2*j**2*k**2*m*o-2*d**2*f**2*g*h**2*j**2*k**2*m*o+2*c*d*f**2*h**3*j**2*k**2*m*o";
"+2*b**2*c*d**3*f*g**2*j*l*m*o+2*b*d**3*f**2*g**3*j*l*m*o-4*b**2*c**2*d**2*f*g*h*j*l*m*o";
"-2*b*c*d**2*f**2*g**2*h*j*l*m*o+2*d**2*f**3*g**3*h*j*l*m*o+2*b**2*c**3*d*f*h**2*j*l*m*o";
"-2*b*c**2*d*f**2*g*h**2*j*l*m*o-4*c*d*f**3*g**2*h**2*j*l*m*o+2*b*c**3*f**2*h**3*j*l*m*o";
"+2*c**2*f**3*g*h**3*j*l*m*o+4*b**2*c*d**3*g*j**2*k*l*m*o-2*b*d**3*f*g**2*j**2*k*l*m*o";
"-4*b**2*c**2*d**2*h*j**2*k*l*m*o+12*b*c*d**2*f*g*h*j**2*k*l*m*o-2*d**2*f**2*g**2*h*j**2*k*l*m*o";
"-10*b*c**2*d*f*h**2*j**2*k*l*m*o+8*c*d*f**2*g*h**2*j**2*k*l*m*o-6*c**2*f**2*h**3*j**2*k*l*m*o";
"-4*b*d**3*g*j**3*k**2*l*m*o+4*b*c*d**2*h*j**3*k**2*l*m*o-4*d**2*f*g*h*j**3*k**2*l*m*o";
"+4*c*d*f*h**2*j**3*k**2*l*m*o-2*b**2*c**2*d**2*g*j**2*l**2*m*o+2*b*c*d**2*f*g**2*j**2*l**2*m*o";
"+4*d**2*f**2*g**3*j**2*l**2*m*o+2*b**2*c**3*d*h*j**2*l**2*m*o-8*b*c**2*d*f*g*h*j**2*l**2*m*o";
"-10*c*d*f**2*g**2*h*j**2*l**2*m*o+6*b*c**3*f*h**2*j**2*l**2*m*o+6*c**2*f**2*g*h**2*j**2*l**2*m*o";
"+8*b*c*d**2*g*j**3*k*l**2*m*o+4*d**2*f*g**2*j**3*k*l**2*m*o-8*b*c**2*d*h*j**3*k*l**2*m*o";
"-4*c**2*f*h**2*j**3*k*l**2*m*o-4*b*c**2*d*g*j**3*l**3*m*o-4*c*d*f*g**2*j**3*l**3*m*o+4*b*c**3*h*j**3*l**3*m*o";
"+4*c**2*f*g*h*j**3*l**3*m*o-2*b**2*d**4*f*g**2*i*k*n*o+4*b**2*c*d**3*f*g*h*i*k*n*o";
"-4*b*d**3*f**2*g**2*h*i*k*n*o-2*b**2*c**2*d**2*f*h**2*i*k*n*o+8*b*c*d**2*f**2*g*h**2*i*k*n*o";
"-2*d**2*f**3*g**2*h**2*i*k*n*o-4*b*c**2*d*f**2*h**3*i*k*n*o+4*c*d*f**3*g*h**3*i*k*n*o-2*c**2*f**3*h**4*i*k*n*o";
"+2*b**2*d**4*g*i*j*k**2*n*o-2*b**2*c*d**3*h*i*j*k**2*n*o+4*b*d**3*f*g*h*i*j*k**2*n*o";
"-4*b*c*d**2*f*h**2*i*j*k**2*n*o+2*d**2*f**2*g*h**2*i*j*k**2*n*o-2*c*d*f**2*h**3*i*j*k**2*n*o";
"+2*b**2*c*d**3*f*g**2*i*l*n*o+2*b*d**3*f**2*g**3*i*l*n*o-4*b**2*c**2*d**2*f*g*h*i*l*n*o";
"-2*b*c*d**2*f**2*g**2*h*i*l*n*o+2*d**2*f**3*g**3*h*i*l*n*o+2*b**2*c**3*d*f*h**2*i*l*n*o";
"-2*b*c**2*d*f**2*g*h**2*i*l*n*o-4*c*d*f**3*g**2*h**2*i*l*n*o+2*b*c**3*f**2*h**3*i*l*n*o";
"+2*c**2*f**3*g*h**3*i*l*n*o-4*b**2*c*d**3*g*i*j*k*l*n*o-2*b*d**3*f*g**2*i*j*k*l*n*o";
"+4*b**2*c**2*d**2*h*i*j*k*l*n*o-4*b*c*d**2*f*g*h*i*j*k*l*n*o-2*d**2*f**2*g**2*h*i*j*k*l*n*o";
"+6*b*c**2*d*f*h**2*i*j*k*l*n*o+2*c**2*f**2*h**3*i*j*k*l*n*o+4*b*d**3*g*i*j**2*k**2*l*n*o";
"-4*b*c*d**2*h*i*j**2*k**2*l*n*o+4*d**2*f*g*h*i*j**2*k**2*l*n*o-4*c*d*f*h**2*i*j**2*k**2*l*n*o";
"+2*b**2*c**2*d**2*g*i*j*l**2*n*o+2*b*c*d**2*f*g**2*i*j*l**2*n*o-2*b**2*c**3*d*h*i*j*l**2*n*o";
"+2*c*d*f**2*g**2*h*i*j*l**2*n*o-2*b*c**3*f*h**2*i*j*l**2*n*o-2*c**2*f**2*g*h**2*i*j*l**2*n*o";
"-8*b*c*d**2*g*i*j**2*k*l**2*n*o-4*d**2*f*g**2*i*j**2*k*l**2*n*o+8*b*c**2*d*h*i*j**2*k*l**2*n*o";
"+4*c**2*f*h**2*i*j**2*k*l**2*n*o+4*b*c**2*d*g*i*j**2*l**3*n*o+4*c*d*f*g**2*i*j**2*l**3*n*o";
"-4*b*c**3*h*i*j**2*l**3*n*o-4*c**2*f*g*h*i*j**2*l**3*n*o-2*b**2*d**4*f*g**2*m*n*o**2";
"+4*b**2*c*d**3*f*g*h*m*n*o**2-4*b*d**3*f**2*g**2*h*m*n*o**2-2*b**2*c**2*d**2*f*h**2*m*n*o**2";
"+8*b*c*d**2*f**2*g*h**2*m*n*o**2-2*d**2*f**3*g**2*h**2*m*n*o**2-4*b*c**2*d*f**2*h**3*m*n*o**2";
"+4*c*d*f**3*g*h**3*m*n*o**2-2*c**2*f**3*h**4*m*n*o**2-2*b**2*d**4*g*j*k*m*n*o**2+2*b**2*c*d**3*h*j*k*m*n*o**2";
"-4*b*d**3*f*g*h*j*k*m*n*o**2+4*b*c*d**2*f*h**2*j*k*m*n*o**2-2*d**2*f**2*g*h**2*j*k*m*n*o**2";
"+2*c*d*f**2*h**3*j*k*m*n*o**2+2*b**2*c*d**3*g*j*l*m*n*o**2-2*b*d**3*f*g**2*j*l*m*n*o**2";
"-2*b**2*c**2*d**2*h*j*l*m*n*o**2+8*b*c*d**2*f*g*h*j*l*m*n*o**2-2*d**2*f**2*g**2*h*j*l*m*n*o**2";
"-6*b*c**2*d*f*h**2*j*l*m*n*o**2+6*c*d*f**2*g*h**2*j*l*m*n*o**2-4*c**2*f**2*h**3*j*l*m*n*o**2";
"-2*b*d**3*g*j**2*k*l*m*n*o**2+2*b*c*d**2*h*j**2*k*l*m*n*o**2-2*d**2*f*g*h*j**2*k*l*m*n*o**2";
"+2*c*d*f*h**2*j**2*k*l*m*n*o**2+2*b*c*d**2*g*j**2*l**2*m*n*o**2-2*b*c**2*d*h*j**2*l**2*m*n*o**2";
"+2*c*d*f*g*h*j**2*l**2*m*n*o**2-2*c**2*f*h**2*j**2*l**2*m*n*o**2+2*b**2*d**4*g*i*k*n**2*o**2";
"-2*b**2*c*d**3*h*i*k*n**2*o**2+4*b*d**3*f*g*h*i*k*n**2*o**2-4*b*c*d**2*f*h**2*i*k*n**2*o**2";
"+2*d**2*f**2*g*h**2*i*k*n**2*o**2-2*c*d*f**2*h**3*i*k*n**2*o**2-2*b**2*c*d**3*g*i*l*n**2*o**2";
"-2*b*d**3*f*g**2*i*l*n**2*o**2+2*b**2*c**2*d**2*h*i*l*n**2*o**2-2*d**2*f**2*g**2*h*i*l*n**2*o**2";
"+2*b*c**2*d*f*h**2*i*l*n**2*o**2+2*c*d*f**2*g*h**2*i*l*n**2*o**2+2*b*d**3*g*i*j*k*l*n**2*o**2";
"-2*b*c*d**2*h*i*j*k*l*n**2*o**2+2*d**2*f*g*h*i*j*k*l*n**2*o**2-2*c*d*f*h**2*i*j*k*l*n**2*o**2";
"-2*b*c*d**2*g*i*j*l**2*n**2*o**2-2*d**2*f*g**2*i*j*l**2*n**2*o**2+2*b*c**2*d*h*i*j*l**2*n**2*o**2";
"+2*c*d*f*g*h*i*j*l**2*n**2*o**2+2*b**2*c*d**3*f*g**2*j*k*m*p+2*b*d**3*f**2*g**3*j*k*m*p";
"-4*b**2*c**2*d**2*f*g*h*j*k*m*p-2*b*c*d**2*f**2*g**2*h*j*k*m*p+2*d**2*f**3*g**3*h*j*k*m*p";
"+2*b**2*c**3*d*f*h**2*j*k*m*p-2*b*c**2*d*f**2*g*h**2*j*k*m*p-4*c*d*f**3*g**2*h**2*j*k*m*p";
"+2*b*c**3*f**2*h**3*j*k*m*p+2*c**2*f**3*g*h**3*j*k*m*p+2*b**2*c*d**3*g*j**2*k**2*m*p";
"+6*b*d**3*f*g**2*j**2*k**2*m*p-2*b**2*c**2*d**2*h*j**2*k**2*m*p-8*b*c*d**2*f*g*h*j**2*k**2*m*p";
"+6*d**2*f**2*g**2*h*j**2*k**2*m*p+2*b*c**2*d*f*h**2*j**2*k**2*m*p-10*c*d*f**2*g*h**2*j**2*k**2*m*p";
"+4*c**2*f**2*h**3*j**2*k**2*m*p+4*b*d**3*g*j**3*k**3*m*p-4*b*c*d**2*h*j**3*k**3*m*p+4*d**2*f*g*h*j**3*k**3*m*p";
"-4*c*d*f*h**2*j**3*k**3*m*p-2*b**2*c**2*d**2*f*g**2*j*l*m*p-4*b*c*d**2*f**2*g**3*j*l*m*p";
"-2*d**2*f**3*g**4*j*l*m*p+4*b**2*c**3*d*f*g*h*j*l*m*p+8*b*c**2*d*f**2*g**2*h*j*l*m*p+4*c*d*f**3*g**3*h*j*l*m*p";
"-2*b**2*c**4*f*h**2*j*l*m*p-4*b*c**3*f**2*g*h**2*j*l*m*p-2*c**2*f**3*g**2*h**2*j*l*m*p";
"-4*b**2*c**2*d**2*g*j**2*k*l*m*p-10*b*c*d**2*f*g**2*j**2*k*l*m*p-6*d**2*f**2*g**3*j**2*k*l*m*p";
"+4*b**2*c**3*d*h*j**2*k*l*m*p+12*b*c**2*d*f*g*h*j**2*k*l*m*p+8*c*d*f**2*g**2*h*j**2*k*l*m*p";
"-2*b*c**3*f*h**2*j**2*k*l*m*p-2*c**2*f**2*g*h**2*j**2*k*l*m*p-8*b*c*d**2*g*j**3*k**2*l*m*p";
"-4*d**2*f*g**2*j**3*k**2*l*m*p+8*b*c**2*d*h*j**3*k**2*l*m*p+4*c**2*f*h**2*j**3*k**2*l*m*p";
"+2*b**2*c**3*d*g*j**2*l**2*m*p+4*b*c**2*d*f*g**2*j**2*l**2*m*p+2*c*d*f**2*g**3*j**2*l**2*m*p";
"-2*b**2*c**4*h*j**2*l**2*m*p-4*b*c**3*f*g*h*j**2*l**2*m*p-2*c**2*f**2*g**2*h*j**2*l**2*m*p";
"+4*b*c**2*d*g*j**3*k*l**2*m*p+4*c*d*f*g**2*j**3*k*l**2*m*p-4*b*c**3*h*j**3*k*l**2*m*p";
"-4*c**2*f*g*h*j**3*k*l**2*m*p+2*b**2*c*d**3*f*g**2*i*k*n*p+2*b*d**3*f**2*g**3*i*k*n*p";
"-4*b**2*c**2*d**2*f*g*h*i*k*n*p-2*b*c*d**2*f**2*g**2*h*i*k*n*p+2*d**2*f**3*g**3*h*i*k*n*p";
"+2*b**2*c**3*d*f*h**2*i*k*n*p-2*b*c**2*d*f**2*g*h**2*i*k*n*p-4*c*d*f**3*g**2*h**2*i*k*n*p";
"+2*b*c**3*f**2*h**3*i*k*n*p+2*c**2*f**3*g*h**3*i*k*n*p-2*b**2*c*d**3*g*i*j*k**2*n*p";
"-2*b*d**3*f*g**2*i*j*k**2*n*p+2*b**2*c**2*d**2*h*i*j*k**2*n*p-2*d**2*f**2*g**2*h*i*j*k**2*n*p";
"+2*b*c**2*d*f*h**2*i*j*k**2*n*p+2*c*d*f**2*g*h**2*i*j*k**2*n*p-4*b*d**3*g*i*j**2*k**3*n*p";
"+4*b*c*d**2*h*i*j**2*k**3*n*p-4*d**2*f*g*h*i*j**2*k**3*n*p+4*c*d*f*h**2*i*j**2*k**3*n*p";
"-2*b**2*c**2*d**2*f*g**2*i*l*n*p-4*b*c*d**2*f**2*g**3*i*l*n*p-2*d**2*f**3*g**4*i*l*n*p";
"+4*b**2*c**3*d*f*g*h*i*l*n*p+8*b*c**2*d*f**2*g**2*h*i*l*n*p+4*c*d*f**3*g**3*h*i*l*n*p";
"-2*b**2*c**4*f*h**2*i*l*n*p-4*b*c**3*f**2*g*h**2*i*l*n*p-2*c**2*f**3*g**2*h**2*i*l*n*p";
"+4*b**2*c**2*d**2*g*i*j*k*l*n*p+6*b*c*d**2*f*g**2*i*j*k*l*n*p+2*d**2*f**2*g**3*i*j*k*l*n*p";
"-4*b**2*c**3*d*h*i*j*k*l*n*p-4*b*c**2*d*f*g*h*i*j*k*l*n*p-2*b*c**3*f*h**2*i*j*k*l*n*p";
"-2*c**2*f**2*g*h**2*i*j*k*l*n*p+8*b*c*d**2*g*i*j**2*k**2*l*n*p+4*d**2*f*g**2*i*j**2*k**2*l*n*p";
"-8*b*c**2*d*h*i*j**2*k**2*l*n*p-4*c**2*f*h**2*i*j**2*k**2*l*n*p-2*b**2*c**3*d*g*i*j*l**2*n*p";
"-4*b*c**2*d*f*g**2*i*j*l**2*n*p-2*c*d*f**2*g**3*i*j*l**2*n*p+2*b**2*c**4*h*i*j*l**2*n*p";
"+4*b*c**3*f*g*h*i*j*l**2*n*p+2*c**2*f**2*g**2*h*i*j*l**2*n*p-4*b*c**2*d*g*i*j**2*k*l**2*n*p";
"-4*c*d*f*g**2*i*j**2*k*l**2*n*p+4*b*c**3*h*i*j**2*k*l**2*n*p+4*c**2*f*g*h*i*j**2*k*l**2*n*p";
"+4*b**2*c*d**3*f*g**2*m*n*o*p+4*b*d**3*f**2*g**3*m*n*o*p-8*b**2*c**2*d**2*f*g*h*m*n*o*p";
"-4*b*c*d**2*f**2*g**2*h*m*n*o*p+4*d**2*f**3*g**3*h*m*n*o*p+4*b**2*c**3*d*f*h**2*m*n*o*p";
"-4*b*c**2*d*f**2*g*h**2*m*n*o*p-8*c*d*f**3*g**2*h**2*m*n*o*p+4*b*c**3*f**2*h**3*m*n*o*p";
"+4*c**2*f**3*g*h**3*m*n*o*p+4*b**2*c*d**3*g*j*k*m*n*o*p+6*b*d**3*f*g**2*j*k*m*n*o*p";
"-4*b**2*c**2*d**2*h*j*k*m*n*o*p-4*b*c*d**2*f*g*h*j*k*m*n*o*p+6*d**2*f**2*g**2*h*j*k*m*n*o*p";
"-2*b*c**2*d*f*h**2*j*k*m*n*o*p-8*c*d*f**2*g*h**2*j*k*m*n*o*p+2*c**2*f**2*h**3*j*k*m*n*o*p";
"+2*b*d**3*g*j**2*k**2*m*n*o*p-2*b*c*d**2*h*j**2*k**2*m*n*o*p+2*d**2*f*g*h*j**2*k**2*m*n*o*p";
"-2*c*d*f*h**2*j**2*k**2*m*n*o*p-4*b**2*c**2*d**2*g*j*l*m*n*o*p-2*b*c*d**2*f*g**2*j*l*m*n*o*p";
"+2*d**2*f**2*g**3*j*l*m*n*o*p+4*b**2*c**3*d*h*j*l*m*n*o*p-4*b*c**2*d*f*g*h*j*l*m*n*o*p";
"-8*c*d*f**2*g**2*h*j*l*m*n*o*p+6*b*c**3*f*h**2*j*l*m*n*o*p+6*c**2*f**2*g*h**2*j*l*m*n*o*p";
"+2*d**2*f*g**2*j**2*k*l*m*n*o*p-4*c*d*f*g*h*j**2*k*l*m*n*o*p+2*c**2*f*h**2*j**2*k*l*m*n*o*p";
"-2*b*c**2*d*g*j**2*l**2*m*n*o*p-2*c*d*f*g**2*j**2*l**2*m*n*o*p+2*b*c**3*h*j**2*l**2*m*n*o*p";
"+2*c**2*f*g*h*j**2*l**2*m*n*o*p-4*b**2*c*d**3*g*i*k*n**2*o*p-2*b*d**3*f*g**2*i*k*n**2*o*p";
"+4*b**2*c**2*d**2*h*i*k*n**2*o*p-4*b*c*d**2*f*g*h*i*k*n**2*o*p-2*d**2*f**2*g**2*h*i*k*n**2*o*p";
"+6*b*c**2*d*f*h**2*i*k*n**2*o*p+2*c**2*f**2*h**3*i*k*n**2*o*p-2*b*d**3*g*i*j*k**2*n**2*o*p";
"+2*b*c*d**2*h*i*j*k**2*n**2*o*p-2*d**2*f*g*h*i*j*k**2*n**2*o*p+2*c*d*f*h**2*i*j*k**2*n**2*o*p";
"+4*b**2*c**2*d**2*g*i*l*n**2*o*p+6*b*c*d**2*f*g**2*i*l*n**2*o*p+2*d**2*f**2*g**3*i*l*n**2*o*p";
"-4*b**2*c**3*d*h*i*l*n**2*o*p-4*b*c**2*d*f*g*h*i*l*n**2*o*p-2*b*c**3*f*h**2*i*l*n**2*o*p";
"-2*c**2*f**2*g*h**2*i*l*n**2*o*p+2*d**2*f*g**2*i*j*k*l*n**2*o*p-4*c*d*f*g*h*i*j*k*l*n**2*o*p";
"+2*c**2*f*h**2*i*j*k*l*n**2*o*p+2*b*c**2*d*g*i*j*l**2*n**2*o*p+2*c*d*f*g**2*i*j*l**2*n**2*o*p";
"-2*b*c**3*h*i*j*l**2*n**2*o*p-2*c**2*f*g*h*i*j*l**2*n**2*o*p-2*b**2*c**2*d**2*f*g**2*m*n*p**2";
"-4*b*c*d**2*f**2*g**3*m*n*p**2-2*d**2*f**3*g**4*m*n*p**2+4*b**2*c**3*d*f*g*h*m*n*p**2";
"+8*b*c**2*d*f**2*g**2*h*m*n*p**2+4*c*d*f**3*g**3*h*m*n*p**2-2*b**2*c**4*f*h**2*m*n*p**2";
"-4*b*c**3*f**2*g*h**2*m*n*p**2-2*c**2*f**3*g**2*h**2*m*n*p**2-2*b**2*c**2*d**2*g*j*k*m*n*p**2";
"-6*b*c*d**2*f*g**2*j*k*m*n*p**2-4*d**2*f**2*g**3*j*k*m*n*p**2+2*b**2*c**3*d*h*j*k*m*n*p**2";
"+8*b*c**2*d*f*g*h*j*k*m*n*p**2+6*c*d*f**2*g**2*h*j*k*m*n*p**2-2*b*c**3*f*h**2*j*k*m*n*p**2";
"-2*c**2*f**2*g*h**2*j*k*m*n*p**2-2*b*c*d**2*g*j**2*k**2*m*n*p**2-2*d**2*f*g**2*j**2*k**2*m*n*p**2";
"+2*b*c**2*d*h*j**2*k**2*m*n*p**2+2*c*d*f*g*h*j**2*k**2*m*n*p**2+2*b**2*c**3*d*g*j*l*m*n*p**2";
"+4*b*c**2*d*f*g**2*j*l*m*n*p**2+2*c*d*f**2*g**3*j*l*m*n*p**2-2*b**2*c**4*h*j*l*m*n*p**2";
"-4*b*c**3*f*g*h*j*l*m*n*p**2-2*c**2*f**2*g**2*h*j*l*m*n*p**2+2*b*c**2*d*g*j**2*k*l*m*n*p**2";
"+2*c*d*f*g**2*j**2*k*l*m*n*p**2-2*b*c**3*h*j**2*k*l*m*n*p**2-2*c**2*f*g*h*j**2*k*l*m*n*p**2";
"+2*b**2*c**2*d**2*g*i*k*n**2*p**2+2*b*c*d**2*f*g**2*i*k*n**2*p**2-2*b**2*c**3*d*h*i*k*n**2*p**2";
"+2*c*d*f**2*g**2*h*i*k*n**2*p**2-2*b*c**3*f*h**2*i*k*n**2*p**2-2*c**2*f**2*g*h**2*i*k*n**2*p**2";
"+2*b*c*d**2*g*i*j*k**2*n**2*p**2-2*b*c**2*d*h*i*j*k**2*n**2*p**2+2*c*d*f*g*h*i*j*k**2*n**2*p**2";
"-2*c**2*f*h**2*i*j*k**2*n**2*p**2-2*b**2*c**3*d*g*i*l*n**2*p**2-4*b*c**2*d*f*g**2*i*l*n**2*p**2";
"-2*c*d*f**2*g**3*i*l*n**2*p**2+2*b**2*c**4*h*i*l*n**2*p**2+4*b*c**3*f*g*h*i*l*n**2*p**2";
"+2*c**2*f**2*g**2*h*i*l*n**2*p**2-2*b*c**2*d*g*i*j*k*l*n**2*p**2-2*c*d*f*g**2*i*j*k*l*n**2*p**2";
"+2*b*c**3*h*i*j*k*l*n**2*p**2+2*c**2*f*g*h*i*j*k*l*n**2*p**2-2*b*d**3*g*j**2*k**2*Y+2*b*c*d**2*h*j**2*k**2*Y";
"-2*d**2*f*g*h*j**2*k**2*Y+2*c*d*f*h**2*j**2*k**2*Y+4*b*c*d**2*g*j**2*k*l*Y+2*d**2*f*g**2*j**2*k*l*Y";
"-4*b*c**2*d*h*j**2*k*l*Y-2*c**2*f*h**2*j**2*k*l*Y-2*b*c**2*d*g*j**2*l**2*Y-2*c*d*f*g**2*j**2*l**2*Y";
"+2*b*c**3*h*j**2*l**2*Y+2*c**2*f*g*h*j**2*l**2*Y-4*b*d**3*g*j*k*n*o*Y+4*b*c*d**2*h*j*k*n*o*Y";
"-4*d**2*f*g*h*j*k*n*o*Y+4*c*d*f*h**2*j*k*n*o*Y+4*b*c*d**2*g*j*l*n*o*Y+2*d**2*f*g**2*j*l*n*o*Y";
"-4*b*c**2*d*h*j*l*n*o*Y-2*c**2*f*h**2*j*l*n*o*Y-2*d**2*g*j**2*k*l*n*o*Y+2*c*d*h*j**2*k*l*n*o*Y";
"+2*c*d*g*j**2*l**2*n*o*Y-2*c**2*h*j**2*l**2*n*o*Y-2*b*d**3*g*n**2*o**2*Y+2*b*c*d**2*h*n**2*o**2*Y";
"-2*d**2*f*g*h*n**2*o**2*Y+2*c*d*f*h**2*n**2*o**2*Y-2*d**2*g*j*l*n**2*o**2*Y+2*c*d*h*j*l*n**2*o**2*Y";
"+4*b*c*d**2*g*j*k*n*p*Y+2*d**2*f*g**2*j*k*n*p*Y-4*b*c**2*d*h*j*k*n*p*Y-2*c**2*f*h**2*j*k*n*p*Y";
"+2*d**2*g*j**2*k**2*n*p*Y-2*c*d*h*j**2*k**2*n*p*Y-4*b*c**2*d*g*j*l*n*p*Y-4*c*d*f*g**2*j*l*n*p*Y";
"+4*b*c**3*h*j*l*n*p*Y+4*c**2*f*g*h*j*l*n*p*Y-2*c*d*g*j**2*k*l*n*p*Y+2*c**2*h*j**2*k*l*n*p*Y";
"+4*b*c*d**2*g*n**2*o*p*Y+2*d**2*f*g**2*n**2*o*p*Y-4*b*c**2*d*h*n**2*o*p*Y-2*c**2*f*h**2*n**2*o*p*Y";
"+2*d**2*g*j*k*n**2*o*p*Y-2*c*d*h*j*k*n**2*o*p*Y+2*c*d*g*j*l*n**2*o*p*Y-2*c**2*h*j*l*n**2*o*p*Y";
"-2*b*c**2*d*g*n**2*p**2*Y-2*c*d*f*g**2*n**2*p**2*Y+2*b*c**3*h*n**2*p**2*Y+2*c**2*f*g*h*n**2*p**2*Y";
"-2*c*d*g*j*k*n**2*p**2*Y+2*c**2*h*j*k*n**2*p**2*Y"]%string.
(* squared under the root, DoubleCollinearLimit_D_and_S_e.py:4 *)
Definition text_B1 : pystr := lines [
"2*b**2*d**4*f*g**2*i*j*k**2-4*b**2*c*d**3*f*g*h*i*j*k**2+4*b*d**3*f**2*g**2*h*i*j*k**2";
"+2*b**2*c**2*d**2*f*h**2*i*j*k**2-8*b*c*d**2*f**2*g*h**2*i*j*k**2+2*d**2*f**3*g**2*h**2*i*j*k**2";
"+4*b*c**2*d*f**2*h**3*i*j*k**2-4*c*d*f**3*g*h**3*i*j*k**2+2*c**2*f**3*h**4*i*j*k**2";
"-4*b**2*c*d**3*f*g**2*i*j*k*l-4*b*d**3*f**2*g**3*i*j*k*l+8*b**2*c**2*d**2*f*g*h*i*j*k*l";
"+4*b*c*d**2*f**2*g**2*h*i*j*k*l-4*d**2*f**3*g**3*h*i*j*k*l-4*b**2*c**3*d*f*h**2*i*j*k*l";
"+4*b*c**2*d*f**2*g*h**2*i*j*k*l+8*c*d*f**3*g**2*h**2*i*j*k*l-4*b*c**3*f**2*h**3*i*j*k*l";
"-4*c**2*f**3*g*h**3*i*j*k*l+2*b**2*c**2*d**2*f*g**2*i*j*l**2+4*b*c*d**2*f**2*g**3*i*j*l**2";
"+2*d**2*f**3*g**4*i*j*l**2-4*b**2*c**3*d*f*g*h*i*j*l**2-8*b*c**2*d*f**2*g**2*h*i*j*l**2";
"-4*c*d*f**3*g**3*h*i*j*l**2+2*b**2*c**4*f*h**2*i*j*l**2+4*b*c**3*f**2*g*h**2*i*j*l**2";
"+2*c**2*f**3*g**2*h**2*i*j*l**2+2*b**2*d**4*f*g**2*j*k*m*o-4*b**2*c*d**3*f*g*h*j*k*m*o";
"+4*b*d**3*f**2*g**2*h*j*k*m*o+2*b**2*c**2*d**2*f*h**2*j*k*m*o-8*b*c*d**2*f**2*g*h**2*j*k*m*o";
"+2*d**2*f**3*g**2*h**2*j*k*m*o+4*b*c**2*d*f**2*h**3*j*k*m*o-4*c*d*f**3*g*h**3*j*k*m*o+2*c**2*f**3*h**4*j*k*m*o";
"+2*b**2*d**4*g*j**2*k**2*m*o-2*b**2*c*d**3*h*j**2*k**2*m*o+4*b*d**3*f*g*h*j**2*k**2*m*o";
"-4*b*c*d**2*f*h**2*j**2*k**2*m*o+2*d**2*f**2*g*h**2*j**2*k**2*m*o-2*c*d*f**2*h**3*j**2*k**2*m*o";
"-2*b**2*c*d**3*f*g**2*j*l*m*o-2*b*d**3*f**2*g**3*j*l*m*o+4*b**2*c**2*d**2*f*g*h*j*l*m*o";
"+2*b*c*d**2*f**2*g**2*h*j*l*m*o-2*d**2*f**3*g**3*h*j*l*m*o-2*b**2*c**3*d*f*h**2*j*l*m*o";
"+2*b*c**2*d*f**2*g*h**2*j*l*m*o+4*c*d*f**3*g**2*h**2*j*l*m*o-2*b*c**3*f**2*h**3*j*l*m*o";
"-2*c**2*f**3*g*h**3*j*l*m*o-4*b**2*c*d**3*g*j**2*k*l*m*o+2*b*d**3*f*g**2*j**2*k*l*m*o";
"+4*b**2*c**2*d**2*h*j**2*k*l*m*o-12*b*c*d**2*f*g*h*j**2*k*l*m*o+2*d**2*f**2*g**2*h*j**2*k*l*m*o";
"+10*b*c**2*d*f*h**2*j**2*k*l*m*o-8*c*d*f**2*g*h**2*j**2*k*l*m*o+6*c**2*f**2*h**3*j**2*k*l*m*o";
"+4*b*d**3*g*j**3*k**2*l*m*o-4*b*c*d**2*h*j**3*k**2*l*m*o+4*d**2*f*g*h*j**3*k**2*l*m*o";
"-4*c*d*f*h**2*j**3*k**2*l*m*o+2*b**2*c**2*d**2*g*j**2*l**2*m*o-2*b*c*d**2*f*g**2*j**2*l**2*m*o";
"-4*d**2*f**2*g**3*j**2*l**2*m*o-2*b**2*c**3*d*h*j**2*l**2*m*o+8*b*c**2*d*f*g*h*j**2*l**2*m*o";
"+10*c*d*f**2*g**2*h*j**2*l**2*m*o-6*b*c**3*f*h**2*j**2*l**2*m*o-6*c**2*f**2*g*h**2*j**2*l**2*m*o";
"-8*b*c*d**2*g*j**3*k*l**2*m*o-4*d**2*f*g**2*j**3*k*l**2*m*o+8*b*c**2*d*h*j**3*k*l**2*m*o";
"+4*c**2*f*h**2*j**3*k*l**2*m*o+4*b*c**2*d*g*j**3*l**3*m*o+4*c*d*f*g**2*j**3*l**3*m*o-4*b*c**3*h*j**3*l**3*m*o";
"-4*c**2*f*g*h*j**3*l**3*m*o+2*b**2*d**4*f*g**2*i*k*n*o-4*b**2*c*d**3*f*g*h*i*k*n*o";
"+4*b*d**3*f**2*g**2*h*i*k*n*o+2*b**2*c**2*d**2*f*h**2*i*k*n*o-8*b*c*d**2*f**2*g*h**2*i*k*n*o";
"+2*d**2*f**3*g**2*h**2*i*k*n*o+4*b*c**2*d*f**2*h**3*i*k*n*o-4*c*d*f**3*g*h**3*i*k*n*o+2*c**2*f**3*h**4*i*k*n*o";
"-2*b**2*d**4*g*i*j*k**2*n*o+2*b**2*c*d**3*h*i*j*k**2*n*o-4*b*d**3*f*g*h*i*j*k**2*n*o";
"+4*b*c*d**2*f*h**2*i*j*k**2*n*o-2*d**2*f**2*g*h**2*i*j*k**2*n*o+2*c*d*f**2*h**3*i*j*k**2*n*o";
"-2*b**2*c*d**3*f*g**2*i*l*n*o-2*b*d**3*f**2*g**3*i*l*n*o+4*b**2*c**2*d**2*f*g*h*i*l*n*o";
"+2*b*c*d**2*f**2*g**2*h*i*l*n*o-2*d**2*f**3*g**3*h*i*l*n*o-2*b**2*c**3*d*f*h**2*i*l*n*o";
"+2*b*c**2*d*f**2*g*h**2*i*l*n*o+4*c*d*f**3*g**2*h**2*i*l*n*o-2*b*c**3*f**2*h**3*i*l*n*o";
"-2*c**2*f**3*g*h**3*i*l*n*o+4*b**2*c*d**3*g*i*j*k*l*n*o+2*b*d**3*f*g**2*i*j*k*l*n*o";
"-4*b**2*c**2*d**2*h*i*j*k*l*n*o+4*b*c*d**2*f*g*h*i*j*k*l*n*o+2*d**2*f**2*g**2*h*i*j*k*l*n*o";
"-6*b*c**2*d*f*h**2*i*j*k*l*n*o-2*c**2*f**2*h**3*i*j*k*l*n*o-4*b*d**3*g*i*j**2*k**2*l*n*o";
"+4*b*c*d**2*h*i*j**2*k**2*l*n*o-4*d**2*f*g*h*i*j**2*k**2*l*n*o+4*c*d*f*h**2*i*j**2*k**2*l*n*o";
"-2*b**2*c**2*d**2*g*i*j*l**2*n*o-2*b*c*d**2*f*g**2*i*j*l**2*n*o+2*b**2*c**3*d*h*i*j*l**2*n*o";
"-2*c*d*f**2*g**2*h*i*j*l**2*n*o+2*b*c**3*f*h**2*i*j*l**2*n*o+2*c**2*f**2*g*h**2*i*j*l**2*n*o";
"+8*b*c*d**2*g*i*j**2*k*l**2*n*o+4*d**2*f*g**2*i*j**2*k*l**2*n*o-8*b*c**2*d*h*i*j**2*k*l**2*n*o";
"-4*c**2*f*h**2*i*j**2*k*l**2*n*o-4*b*c**2*d*g*i*j**2*l**3*n*o-4*c*d*f*g**2*i*j**2*l**3*n*o";
"+4*b*c**3*h*i*j**2*l**3*n*o+4*c**2*f*g*h*i*j**2*l**3*n*o+2*b**2*d**4*f*g**2*m*n*o**2";
"-4*b**2*c*d**3*f*g*h*m*n*o**2+4*b*d**3*f**2*g**2*h*m*n*o**2+2*b**2*c**2*d**2*f*h**2*m*n*o**2";
"-8*b*c*d**2*f**2*g*h**2*m*n*o**2+2*d**2*f**3*g**2*h**2*m*n*o**2+4*b*c**2*d*f**2*h**3*m*n*o**2";
"-4*c*d*f**3*g*h**3*m*n*o**2+2*c**2*f**3*h**4*m*n*o**2+2*b**2*d**4*g*j*k*m*n*o**2-2*b**2*c*d**3*h*j*k*m*n*o**2";
"+4*b*d**3*f*g*h*j*k*m*n*o**2-4*b*c*d**2*f*h**2*j*k*m*n*o**2+2*d**2*f**2*g*h**2*j*k*m*n*o**2";
"-2*c*d*f**2*h**3*j*k*m*n*o**2-2*b**2*c*d**3*g*j*l*m*n*o**2+2*b*d**3*f*g**2*j*l*m*n*o**2";
"+2*b**2*c**2*d**2*h*j*l*m*n*o**2-8*b*c*d**2*f*g*h*j*l*m*n*o**2+2*d**2*f**2*g**2*h*j*l*m*n*o**2";
"+6*b*c**2*d*f*h**2*j*l*m*n*o**2-6*c*d*f**2*g*h**2*j*l*m*n*o**2+4*c**2*f**2*h**3*j*l*m*n*o**2";
"+2*b*d**3*g*j**2*k*l*m*n*o**2-2*b*c*d**2*h*j**2*k*l*m*n*o**2+2*d**2*f*g*h*j**2*k*l*m*n*o**2";
"-2*c*d*f*h**2*j**2*k*l*m*n*o**2-2*b*c*d**2*g*j**2*l**2*m*n*o**2+2*b*c**2*d*h*j**2*l**2*m*n*o**2";
"-2*c*d*f*g*h*j**2*l**2*m*n*o**2+2*c**2*f*h**2*j**2*l**2*m*n*o**2-2*b**2*d**4*g*i*k*n**2*o**2";
"+2*b**2*c*d**3*h*i*k*n**2*o**2-4*b*d**3*f*g*h*i*k*n**2*o**2+4*b*c*d**2*f*h**2*i*k*n**2*o**2";
"-2*d**2*f**2*g*h**2*i*k*n**2*o**2+2*c*d*f**2*h**3*i*k*n**2*o**2+2*b**2*c*d**3*g*i*l*n**2*o**2";
"+2*b*d**3*f*g**2*i*l*n**2*o**2-2*b**2*c**2*d**2*h*i*l*n**2*o**2+2*d**2*f**2*g**2*h*i*l*n**2*o**2";
"-2*b*c**2*d*f*h**2*i*l*n**2*o**2-2*c*d*f**2*g*h**2*i*l*n**2*o**2-2*b*d**3*g*i*j*k*l*n**2*o**2";
"+2*b*c*d**2*h*i*j*k*l*n**2*o**2-2*d**2*f*g*h*i*j*k*l*n**2*o**2+2*c*d*f*h**2*i*j*k*l*n**2*o**2";
"+2*b*c*d**2*g*i*j*l**2*n**2*o**2+2*d**2*f*g**2*i*j*l**2*n**2*o**2-2*b*c**2*d*h*i*j*l**2*n**2*o**2";
"-2*c*d*f*g*h*i*j*l**2*n**2*o**2-2*b**2*c*d**3*f*g**2*j*k*m*p-2*b*d**3*f**2*g**3*j*k*m*p";
"+4*b**2*c**2*d**2*f*g*h*j*k*m*p+2*b*c*d**2*f**2*g**2*h*j*k*m*p-2*d**2*f**3*g**3*h*j*k*m*p";
"-2*b**2*c**3*d*f*h**2*j*k*m*p+2*b*c**2*d*f**2*g*h**2*j*k*m*p+4*c*d*f**3*g**2*h**2*j*k*m*p";
"-2*b*c**3*f**2*h**3*j*k*m*p-2*c**2*f**3*g*h**3*j*k*m*p-2*b**2*c*d**3*g*j**2*k**2*m*p";
"-6*b*d**3*f*g**2*j**2*k**2*m*p+2*b**2*c**2*d**2*h*j**2*k**2*m*p+8*b*c*d**2*f*g*h*j**2*k**2*m*p";
"-6*d**2*f**2*g**2*h*j**2*k**2*m*p-2*b*c**2*d*f*h**2*j**2*k**2*m*p+10*c*d*f**2*g*h**2*j**2*k**2*m*p";
"-4*c**2*f**2*h**3*j**2*k**2*m*p-4*b*d**3*g*j**3*k**3*m*p+4*b*c*d**2*h*j**3*k**3*m*p-4*d**2*f*g*h*j**3*k**3*m*p";
"+4*c*d*f*h**2*j**3*k**3*m*p+2*b**2*c**2*d**2*f*g**2*j*l*m*p+4*b*c*d**2*f**2*g**3*j*l*m*p";
"+2*d**2*f**3*g**4*j*l*m*p-4*b**2*c**3*d*f*g*h*j*l*m*p-8*b*c**2*d*f**2*g**2*h*j*l*m*p-4*c*d*f**3*g**3*h*j*l*m*p";
"+2*b**2*c**4*f*h**2*j*l*m*p+4*b*c**3*f**2*g*h**2*j*l*m*p+2*c**2*f**3*g**2*h**2*j*l*m*p";
"+4*b**2*c**2*d**2*g*j**2*k*l*m*p+10*b*c*d**2*f*g**2*j**2*k*l*m*p+6*d**2*f**2*g**3*j**2*k*l*m*p";
"-4*b**2*c**3*d*h*j**2*k*l*m*p-12*b*c**2*d*f*g*h*j**2*k*l*m*p-8*c*d*f**2*g**2*h*j**2*k*l*m*p";
"+2*b*c**3*f*h**2*j**2*k*l*m*p+2*c**2*f**2*g*h**2*j**2*k*l*m*p+8*b*c*d**2*g*j**3*k**2*l*m*p";
"+4*d**2*f*g**2*j**3*k**2*l*m*p-8*b*c**2*d*h*j**3*k**2*l*m*p-4*c**2*f*h**2*j**3*k**2*l*m*p";
"-2*b**2*c**3*d*g*j**2*l**2*m*p-4*b*c**2*d*f*g**2*j**2*l**2*m*p-2*c*d*f**2*g**3*j**2*l**2*m*p";
"+2*b**2*c**4*h*j**2*l**2*m*p+4*b*c**3*f*g*h*j**2*l**2*m*p+2*c**2*f**2*g**2*h*j**2*l**2*m*p";
"-4*b*c**2*d*g*j**3*k*l**2*m*p-4*c*d*f*g**2*j**3*k*l**2*m*p+4*b*c**3*h*j**3*k*l**2*m*p";
"+4*c**2*f*g*h*j**3*k*l**2*m*p-2*b**2*c*d**3*f*g**2*i*k*n*p-2*b*d**3*f**2*g**3*i*k*n*p";
"+4*b**2*c**2*d**2*f*g*h*i*k*n*p+2*b*c*d**2*f**2*g**2*h*i*k*n*p-2*d**2*f**3*g**3*h*i*k*n*p";
"-2*b**2*c**3*d*f*h**2*i*k*n*p+2*b*c**2*d*f**2*g*h**2*i*k*n*p+4*c*d*f**3*g**2*h**2*i*k*n*p";
"-2*b*c**3*f**2*h**3*i*k*n*p-2*c**2*f**3*g*h**3*i*k*n*p+2*b**2*c*d**3*g*i*j*k**2*n*p";
"+2*b*d**3*f*g**2*i*j*k**2*n*p-2*b**2*c**2*d**2*h*i*j*k**2*n*p+2*d**2*f**2*g**2*h*i*j*k**2*n*p";
"-2*b*c**2*d*f*h**2*i*j*k**2*n*p-2*c*d*f**2*g*h**2*i*j*k**2*n*p+4*b*d**3*g*i*j**2*k**3*n*p";
"-4*b*c*d**2*h*i*j**2*k**3*n*p+4*d**2*f*g*h*i*j**2*k**3*n*p-4*c*d*f*h**2*i*j**2*k**3*n*p";
"+2*b**2*c**2*d**2*f*g**2*i*l*n*p+4*b*c*d**2*f**2*g**3*i*l*n*p+2*d**2*f**3*g**4*i*l*n*p";
"-4*b**2*c**3*d*f*g*h*i*l*n*p-8*b*c**2*d*f**2*g**2*h*i*l*n*p-4*c*d*f**3*g**3*h*i*l*n*p";
"+2*b**2*c**4*f*h**2*i*l*n*p+4*b*c**3*f**2*g*h**2*i*l*n*p+2*c**2*f**3*g**2*h**2*i*l*n*p";
"-4*b**2*c**2*d**2*g*i*j*k*l*n*p-6*b*c*d**2*f*g**2*i*j*k*l*n*p-2*d**2*f**2*g**3*i*j*k*l*n*p";
"+4*b**2*c**3*d*h*i*j*k*l*n*p+4*b*c**2*d*f*g*h*i*j*k*l*n*p+2*b*c**3*f*h**2*i*j*k*l*n*p";
"+2*c**2*f**2*g*h**2*i*j*k*l*n*p-8*b*c*d**2*g*i*j**2*k**2*l*n*p-4*d**2*f*g**2*i*j**2*k**2*l*n*p";
"+8*b*c**2*d*h*i*j**2*k**2*l*n*p+4*c**2*f*h**2*i*j**2*k**2*l*n*p+2*b**2*c**3*d*g*i*j*l**2*n*p";
"+4*b*c**2*d*f*g**2*i*j*l**2*n*p+2*c*d*f**2*g**3*i*j*l**2*n*p-2*b**2*c**4*h*i*j*l**2*n*p";
"-4*b*c**3*f*g*h*i*j*l**2*n*p-2*c**2*f**2*g**2*h*i*j*l**2*n*p+4*b*c**2*d*g*i*j**2*k*l**2*n*p";
"+4*c*d*f*g**2*i*j**2*k*l**2*n*p-4*b*c**3*h*i*j**2*k*l**2*n*p-4*c**2*f*g*h*i*j**2*k*l**2*n*p";
"-4*b**2*c*d**3*f*g**2*m*n*o*p-4*b*d**3*f**2*g**3*m*n*o*p+8*b**2*c**2*d**2*f*g*h*m*n*o*p";
"+4*b*c*d**2*f**2*g**2*h*m*n*o*p-4*d**2*f**3*g**3*h*m*n*o*p-4*b**2*c**3*d*f*h**2*m*n*o*p";
"+4*b*c**2*d*f**2*g*h**2*m*n*o*p+8*c*d*f**3*g**2*h**2*m*n*o*p-4*b*c**3*f**2*h**3*m*n*o*p";
"-4*c**2*f**3*g*h**3*m*n*o*p-4*b**2*c*d**3*g*j*k*m*n*o*p-6*b*d**3*f*g**2*j*k*m*n*o*p";
"+4*b**2*c**2*d**2*h*j*k*m*n*o*p+4*b*c*d**2*f*g*h*j*k*m*n*o*p-6*d**2*f**2*g**2*h*j*k*m*n*o*p";
"+2*b*c**2*d*f*h**2*j*k*m*n*o*p+8*c*d*f**2*g*h**2*j*k*m*n*o*p-2*c**2*f**2*h**3*j*k*m*n*o*p";
"-2*b*d**3*g*j**2*k**2*m*n*o*p+2*b*c*d**2*h*j**2*k**2*m*n*o*p-2*d**2*f*g*h*j**2*k**2*m*n*o*p";
"+2*c*d*f*h**2*j**2*k**2*m*n*o*p+4*b**2*c**2*d**2*g*j*l*m*n*o*p+2*b*c*d**2*f*g**2*j*l*m*n*o*p";
"-2*d**2*f**2*g**3*j*l*m*n*o*p-4*b**2*c**3*d*h*j*l*m*n*o*p+4*b*c**2*d*f*g*h*j*l*m*n*o*p";
"+8*c*d*f**2*g**2*h*j*l*m*n*o*p-6*b*c**3*f*h**2*j*l*m*n*o*p-6*c**2*f**2*g*h**2*j*l*m*n*o*p";
"-2*d**2*f*g**2*j**2*k*l*m*n*o*p+4*c*d*f*g*h*j**2*k*l*m*n*o*p-2*c**2*f*h**2*j**2*k*l*m*n*o*p";
"+2*b*c**2*d*g*j**2*l**2*m*n*o*p+2*c*d*f*g**2*j**2*l**2*m*n*o*p-2*b*c**3*h*j**2*l**2*m*n*o*p";
"-2*c**2*f*g*h*j**2*l**2*m*n*o*p+4*b**2*c*d**3*g*i*k*n**2*o*p+2*b*d**3*f*g**2*i*k*n**2*o*p";
"-4*b**2*c**2*d**2*h*i*k*n**2*o*p+4*b*c*d**2*f*g*h*i*k*n**2*o*p+2*d**2*f**2*g**2*h*i*k*n**2*o*p";
"-6*b*c**2*d*f*h**2*i*k*n**2*o*p-2*c**2*f**2*h**3*i*k*n**2*o*p+2*b*d**3*g*i*j*k**2*n**2*o*p";
"-2*b*c*d**2*h*i*j*k**2*n**2*o*p+2*d**2*f*g*h*i*j*k**2*n**2*o*p-2*c*d*f*h**2*i*j*k**2*n**2*o*p";
"-4*b**2*c**2*d**2*g*i*l*n**2*o*p-6*b*c*d**2*f*g**2*i*l*n**2*o*p-2*d**2*f**2*g**3*i*l*n**2*o*p";
"+4*b**2*c**3*d*h*i*l*n**2*o*p+4*b*c**2*d*f*g*h*i*l*n**2*o*p+2*b*c**3*f*h**2*i*l*n**2*o*p";
"+2*c**2*f**2*g*h**2*i*l*n**2*o*p-2*d**2*f*g**2*i*j*k*l*n**2*o*p+4*c*d*f*g*h*i*j*k*l*n**2*o*p";
"-2*c**2*f*h**2*i*j*k*l*n**2*o*p-2*b*c**2*d*g*i*j*l**2*n**2*o*p-2*c*d*f*g**2*i*j*l**2*n**2*o*p";
"+2*b*c**3*h*i*j*l**2*n**2*o*p+2*c**2*f*g*h*i*j*l**2*n**2*o*p+2*b**2*c**2*d**2*f*g**2*m*n*p**2";
"+4*b*c*d**2*f**2*g**3*m*n*p**2+2*d**2*f**3*g**4*m*n*p**2-4*b**2*c**3*d*f*g*h*m*n*p**2";
"-8*b*c**2*d*f**2*g**2*h*m*n*p**2-4*c*d*f**3*g**3*h*m*n*p**2+2*b**2*c**4*f*h**2*m*n*p**2";
"+4*b*c**3*f**2*g*h**2*m*n*p**2+2*c**2*f**3*g**2*h**2*m*n*p**2+2*b**2*c**2*d**2*g*j*k*m*n*p**2";
"+6*b*c*d**2*f*g**2*j*k*m*n*p**2+4*d**2*f**2*g**3*j*k*m*n*p**2-2*b**2*c**3*d*h*j*k*m*n*p**2";
"-8*b*c**2*d*f*g*h*j*k*m*n*p**2-6*c*d*f**2*g**2*h*j*k*m*n*p**2+2*b*c**3*f*h**2*j*k*m*n*p**2";
"+2*c**2*f**2*g*h**2*j*k*m*n*p**2+2*b*c*d**2*g*j**2*k**2*m*n*p**2+2*d**2*f*g**2*j**2*k**2*m*n*p**2";
"-2*b*c**2*d*h*j**2*k**2*m*n*p**2-2*c*d*f*g*h*j**2*k**2*m*n*p**2-2*b**2*c**3*d*g*j*l*m*n*p**2";
"-4*b*c**2*d*f*g**2*j*l*m*n*p**2-2*c*d*f**2*g**3*j*l*m*n*p**2+2*b**2*c**4*h*j*l*m*n*p**2";
"+4*b*c**3*f*g*h*j*l*m*n*p**2+2*c**2*f**2*g**2*h*j*l*m*n*p**2-2*b*c**2*d*g*j**2*k*l*m*n*p**2";
"-2*c*d*f*g**2*j**2*k*l*m*n*p**2+2*b*c**3*h*j**2*k*l*m*n*p**2+2*c**2*f*g*h*j**2*k*l*m*n*p**2";
"-2*b**2*c**2*d**2*g*i*k*n**2*p**2-2*b*c*d**2*f*g**2*i*k*n**2*p**2+2*b**2*c**3*d*h*i*k*n**2*p**2";
"-2*c*d*f**2*g**2*h*i*k*n**2*p**2+2*b*c**3*f*h**2*i*k*n**2*p**2+2*c**2*f**2*g*h**2*i*k*n**2*p**2";
"-2*b*c*d**2*g*i*j*k**2*n**2*p**2+2*b*c**2*d*h*i*j*k**2*n**2*p**2-2*c*d*f*g*h*i*j*k**2*n**2*p**2";
"+2*c**2*f*h**2*i*j*k**2*n**2*p**2+2*b**2*c**3*d*g*i*l*n**2*p**2+4*b*c**2*d*f*g**2*i*l*n**2*p**2";
"+2*c*d*f**2*g**3*i*l*n**2*p**2-2*b**2*c**4*h*i*l*n**2*p**2-4*b*c**3*f*g*h*i*l*n**2*p**2";
"-2*c**2*f**2*g**2*h*i*l*n**2*p**2+2*b*c**2*d*g*i*j*k*l*n**2*p**2+2*c*d*f*g**2*i*j*k*l*n**2*p**2";
"-2*b*c**3*h*i*j*k*l*n**2*p**2-2*c**2*f*g*h*i*j*k*l*n**2*p**2+2*b*d**3*g*j**2*k**2*Y-2*b*c*d**2*h*j**2*k**2*Y";
"+2*d**2*f*g*h*j**2*k**2*Y-2*c*d*f*h**2*j**2*k**2*Y-4*b*c*d**2*g*j**2*k*l*Y-2*d**2*f*g**2*j**2*k*l*Y";
"+4*b*c**2*d*h*j**2*k*l*Y+2*c**2*f*h**2*j**2*k*l*Y+2*b*c**2*d*g*j**2*l**2*Y+2*c*d*f*g**2*j**2*l**2*Y";
"-2*b*c**3*h*j**2*l**2*Y-2*c**2*f*g*h*j**2*l**2*Y+4*b*d**3*g*j*k*n*o*Y-4*b*c*d**2*h*j*k*n*o*Y";
"+4*d**2*f*g*h*j*k*n*o*Y-4*c*d*f*h**2*j*k*n*o*Y-4*b*c*d**2*g*j*l*n*o*Y-2*d**2*f*g**2*j*l*n*o*Y";
"+4*b*c**2*d*h*j*l*n*o*Y+2*c**2*f*h**2*j*l*n*o*Y+2*d**2*g*j**2*k*l*n*o*Y-2*c*d*h*j**2*k*l*n*o*Y";
"-2*c*d*g*j**2*l**2*n*o*Y+2*c**2*h*j**2*l**2*n*o*Y+2*b*d**3*g*n**2*o**2*Y-2*b*c*d**2*h*n**2*o**2*Y";
"+2*d**2*f*g*h*n**2*o**2*Y-2*c*d*f*h**2*n**2*o**2*Y+2*d**2*g*j*l*n**2*o**2*Y-2*c*d*h*j*l*n**2*o**2*Y";
"-4*b*c*d**2*g*j*k*n*p*Y-2*d**2*f*g**2*j*k*n*p*Y+4*b*c**2*d*h*j*k*n*p*Y+2*c**2*f*h**2*j*k*n*p*Y";
"-2*d**2*g*j**2*k**2*n*p*Y+2*c*d*h*j**2*k**2*n*p*Y+4*b*c**2*d*g*j*l*n*p*Y+4*c*d*f*g**2*j*l*n*p*Y";
"-4*b*c**3*h*j*l*n*p*Y-4*c**2*f*g*h*j*l*n*p*Y+2*c*d*g*j**2*k*l*n*p*Y-2*c**2*h*j**2*k*l*n*p*Y";
"-4*b*c*d**2*g*n**2*o*p*Y-2*d**2*f*g**2*n**2*o*p*Y+4*b*c**2*d*h*n**2*o*p*Y+2*c**2*f*h**2*n**2*o*p*Y";
"-2*d**2*g*j*k*n**2*o*p*Y+2*c*d*h*j*k*n**2*o*p*Y-2*c*d*g*j*l*n**2*o*p*Y+2*c**2*h*j*l*n**2*o*p*Y";
"+2*b*c**2*d*g*n**2*p**2*Y+2*c*d*f*g**2*n**2*p**2*Y-2*b*c**3*h*n**2*p**2*Y-2*c**2*f*g*h*n**2*p**2*Y";
"+2*c*d*g*j*k*n**2*p**2*Y-2*c**2*h*j*k*n**2*p**2*Y"]%string.
(* under the root, DoubleCollinearLimit_D_and_S_e.py:4 *)
Definition text_C : pystr := lines [
"-b**2*d**4*f**2*g**2*i**2*k**2+2*b**2*c*d**3*f**2*g*h*i**2*k**2-2*b*d**3*f**3*g**2*h*i**2*k**2";
"-b**2*c**2*d**2*f**2*h**2*i**2*k**2+4*b*c*d**2*f**3*g*h**2*i**2*k**2-d**2*f**4*g**2*h**2*i**2*k**2";
"-2*b*c**2*d*f**3*h**3*i**2*k**2+2*c*d*f**4*g*h**3*i**2*k**2-c**2*f**4*h**4*i**2*k**2";
"+2*b**2*c*d**3*f**2*g**2*i**2*k*l+2*b*d**3*f**3*g**3*i**2*k*l-4*b**2*c**2*d**2*f**2*g*h*i**2*k*l";
"-2*b*c*d**2*f**3*g**2*h*i**2*k*l+2*d**2*f**4*g**3*h*i**2*k*l+2*b**2*c**3*d*f**2*h**2*i**2*k*l";
"-2*b*c**2*d*f**3*g*h**2*i**2*k*l-4*c*d*f**4*g**2*h**2*i**2*k*l+2*b*c**3*f**3*h**3*i**2*k*l";
"+2*c**2*f**4*g*h**3*i**2*k*l-b**2*c**2*d**2*f**2*g**2*i**2*l**2-2*b*c*d**2*f**3*g**3*i**2*l**2";
"-d**2*f**4*g**4*i**2*l**2+2*b**2*c**3*d*f**2*g*h*i**2*l**2+4*b*c**2*d*f**3*g**2*h*i**2*l**2";
"+2*c*d*f**4*g**3*h*i**2*l**2-b**2*c**4*f**2*h**2*i**2*l**2-2*b*c**3*f**3*g*h**2*i**2*l**2";
"-c**2*f**4*g**2*h**2*i**2*l**2-2*b**2*d**4*f**2*g**2*i*k*m*o+4*b**2*c*d**3*f**2*g*h*i*k*m*o";
"-4*b*d**3*f**3*g**2*h*i*k*m*o-2*b**2*c**2*d**2*f**2*h**2*i*k*m*o+8*b*c*d**2*f**3*g*h**2*i*k*m*o";
"-2*d**2*f**4*g**2*h**2*i*k*m*o-4*b*c**2*d*f**3*h**3*i*k*m*o+4*c*d*f**4*g*h**3*i*k*m*o-2*c**2*f**4*h**4*i*k*m*o";
"-2*b**2*d**4*f*g*i*j*k**2*m*o+2*b**2*c*d**3*f*h*i*j*k**2*m*o-4*b*d**3*f**2*g*h*i*j*k**2*m*o";
"+4*b*c*d**2*f**2*h**2*i*j*k**2*m*o-2*d**2*f**3*g*h**2*i*j*k**2*m*o+2*c*d*f**3*h**3*i*j*k**2*m*o";
"+2*b**2*c*d**3*f**2*g**2*i*l*m*o+2*b*d**3*f**3*g**3*i*l*m*o-4*b**2*c**2*d**2*f**2*g*h*i*l*m*o";
"-2*b*c*d**2*f**3*g**2*h*i*l*m*o+2*d**2*f**4*g**3*h*i*l*m*o+2*b**2*c**3*d*f**2*h**2*i*l*m*o";
"-2*b*c**2*d*f**3*g*h**2*i*l*m*o-4*c*d*f**4*g**2*h**2*i*l*m*o+2*b*c**3*f**3*h**3*i*l*m*o";
"+2*c**2*f**4*g*h**3*i*l*m*o+4*b**2*c*d**3*f*g*i*j*k*l*m*o-2*b*d**3*f**2*g**2*i*j*k*l*m*o";
"-4*b**2*c**2*d**2*f*h*i*j*k*l*m*o+12*b*c*d**2*f**2*g*h*i*j*k*l*m*o-2*d**2*f**3*g**2*h*i*j*k*l*m*o";
"-10*b*c**2*d*f**2*h**2*i*j*k*l*m*o+8*c*d*f**3*g*h**2*i*j*k*l*m*o-6*c**2*f**3*h**3*i*j*k*l*m*o";
"-4*b*d**3*f*g*i*j**2*k**2*l*m*o+4*b*c*d**2*f*h*i*j**2*k**2*l*m*o-4*d**2*f**2*g*h*i*j**2*k**2*l*m*o";
"+4*c*d*f**2*h**2*i*j**2*k**2*l*m*o-2*b**2*c**2*d**2*f*g*i*j*l**2*m*o+2*b*c*d**2*f**2*g**2*i*j*l**2*m*o";
"+4*d**2*f**3*g**3*i*j*l**2*m*o+2*b**2*c**3*d*f*h*i*j*l**2*m*o-8*b*c**2*d*f**2*g*h*i*j*l**2*m*o";
"-10*c*d*f**3*g**2*h*i*j*l**2*m*o+6*b*c**3*f**2*h**2*i*j*l**2*m*o+6*c**2*f**3*g*h**2*i*j*l**2*m*o";
"+8*b*c*d**2*f*g*i*j**2*k*l**2*m*o+4*d**2*f**2*g**2*i*j**2*k*l**2*m*o-8*b*c**2*d*f*h*i*j**2*k*l**2*m*o";
"-4*c**2*f**2*h**2*i*j**2*k*l**2*m*o-4*b*c**2*d*f*g*i*j**2*l**3*m*o-4*c*d*f**2*g**2*i*j**2*l**3*m*o";
"+4*b*c**3*f*h*i*j**2*l**3*m*o+4*c**2*f**2*g*h*i*j**2*l**3*m*o+2*b**2*d**4*f*g*i**2*k**2*n*o";
"-2*b**2*c*d**3*f*h*i**2*k**2*n*o+4*b*d**3*f**2*g*h*i**2*k**2*n*o-4*b*c*d**2*f**2*h**2*i**2*k**2*n*o";
"+2*d**2*f**3*g*h**2*i**2*k**2*n*o-2*c*d*f**3*h**3*i**2*k**2*n*o-4*b**2*c*d**3*f*g*i**2*k*l*n*o";
"+4*b**2*c**2*d**2*f*h*i**2*k*l*n*o-8*b*c*d**2*f**2*g*h*i**2*k*l*n*o+8*b*c**2*d*f**2*h**2*i**2*k*l*n*o";
"-4*c*d*f**3*g*h**2*i**2*k*l*n*o+4*c**2*f**3*h**3*i**2*k*l*n*o+4*b*d**3*f*g*i**2*j*k**2*l*n*o";
"-4*b*c*d**2*f*h*i**2*j*k**2*l*n*o+4*d**2*f**2*g*h*i**2*j*k**2*l*n*o-4*c*d*f**2*h**2*i**2*j*k**2*l*n*o";
"+2*b**2*c**2*d**2*f*g*i**2*l**2*n*o-2*d**2*f**3*g**3*i**2*l**2*n*o-2*b**2*c**3*d*f*h*i**2*l**2*n*o";
"+4*b*c**2*d*f**2*g*h*i**2*l**2*n*o+6*c*d*f**3*g**2*h*i**2*l**2*n*o-4*b*c**3*f**2*h**2*i**2*l**2*n*o";
"-4*c**2*f**3*g*h**2*i**2*l**2*n*o-8*b*c*d**2*f*g*i**2*j*k*l**2*n*o-4*d**2*f**2*g**2*i**2*j*k*l**2*n*o";
"+8*b*c**2*d*f*h*i**2*j*k*l**2*n*o+4*c**2*f**2*h**2*i**2*j*k*l**2*n*o+4*b*c**2*d*f*g*i**2*j*l**3*n*o";
"+4*c*d*f**2*g**2*i**2*j*l**3*n*o-4*b*c**3*f*h*i**2*j*l**3*n*o-4*c**2*f**2*g*h*i**2*j*l**3*n*o";
"-b**2*d**4*f**2*g**2*m**2*o**2+2*b**2*c*d**3*f**2*g*h*m**2*o**2-2*b*d**3*f**3*g**2*h*m**2*o**2";
"-b**2*c**2*d**2*f**2*h**2*m**2*o**2+4*b*c*d**2*f**3*g*h**2*m**2*o**2-d**2*f**4*g**2*h**2*m**2*o**2";
"-2*b*c**2*d*f**3*h**3*m**2*o**2+2*c*d*f**4*g*h**3*m**2*o**2-c**2*f**4*h**4*m**2*o**2";
"-2*b**2*d**4*f*g*j*k*m**2*o**2+2*b**2*c*d**3*f*h*j*k*m**2*o**2-4*b*d**3*f**2*g*h*j*k*m**2*o**2";
"+4*b*c*d**2*f**2*h**2*j*k*m**2*o**2-2*d**2*f**3*g*h**2*j*k*m**2*o**2+2*c*d*f**3*h**3*j*k*m**2*o**2";
"-b**2*d**4*j**2*k**2*m**2*o**2-2*b*d**3*f*h*j**2*k**2*m**2*o**2-d**2*f**2*h**2*j**2*k**2*m**2*o**2";
"+2*b**2*c*d**3*f*g*j*l*m**2*o**2-2*b**2*c**2*d**2*f*h*j*l*m**2*o**2+4*b*c*d**2*f**2*g*h*j*l*m**2*o**2";
"-4*b*c**2*d*f**2*h**2*j*l*m**2*o**2+2*c*d*f**3*g*h**2*j*l*m**2*o**2-2*c**2*f**3*h**3*j*l*m**2*o**2";
"+2*b**2*c*d**3*j**2*k*l*m**2*o**2+4*b*c*d**2*f*h*j**2*k*l*m**2*o**2+2*c*d*f**2*h**2*j**2*k*l*m**2*o**2";
"-b**2*c**2*d**2*j**2*l**2*m**2*o**2-2*b*c**2*d*f*h*j**2*l**2*m**2*o**2-c**2*f**2*h**2*j**2*l**2*m**2*o**2";
"+2*b**2*d**4*f*g*i*k*m*n*o**2-2*b**2*c*d**3*f*h*i*k*m*n*o**2+4*b*d**3*f**2*g*h*i*k*m*n*o**2";
"-4*b*c*d**2*f**2*h**2*i*k*m*n*o**2+2*d**2*f**3*g*h**2*i*k*m*n*o**2-2*c*d*f**3*h**3*i*k*m*n*o**2";
"+2*b**2*d**4*i*j*k**2*m*n*o**2+4*b*d**3*f*h*i*j*k**2*m*n*o**2+2*d**2*f**2*h**2*i*j*k**2*m*n*o**2";
"-2*b**2*c*d**3*f*g*i*l*m*n*o**2-2*b*d**3*f**2*g**2*i*l*m*n*o**2+2*b**2*c**2*d**2*f*h*i*l*m*n*o**2";
"-2*d**2*f**3*g**2*h*i*l*m*n*o**2+2*b*c**2*d*f**2*h**2*i*l*m*n*o**2+2*c*d*f**3*g*h**2*i*l*m*n*o**2";
"-4*b**2*c*d**3*i*j*k*l*m*n*o**2-2*b*d**3*f*g*i*j*k*l*m*n*o**2-6*b*c*d**2*f*h*i*j*k*l*m*n*o**2";
"-2*d**2*f**2*g*h*i*j*k*l*m*n*o**2-2*c*d*f**2*h**2*i*j*k*l*m*n*o**2+2*b**2*c**2*d**2*i*j*l**2*m*n*o**2";
"+2*b*c*d**2*f*g*i*j*l**2*m*n*o**2+2*b*c**2*d*f*h*i*j*l**2*m*n*o**2+2*c*d*f**2*g*h*i*j*l**2*m*n*o**2";
"-b**2*d**4*i**2*k**2*n**2*o**2-2*b*d**3*f*h*i**2*k**2*n**2*o**2-d**2*f**2*h**2*i**2*k**2*n**2*o**2";
"+2*b**2*c*d**3*i**2*k*l*n**2*o**2+2*b*d**3*f*g*i**2*k*l*n**2*o**2+2*b*c*d**2*f*h*i**2*k*l*n**2*o**2";
"+2*d**2*f**2*g*h*i**2*k*l*n**2*o**2-b**2*c**2*d**2*i**2*l**2*n**2*o**2-2*b*c*d**2*f*g*i**2*l**2*n**2*o**2";
"-d**2*f**2*g**2*i**2*l**2*n**2*o**2+2*b**2*c*d**3*f**2*g**2*i*k*m*p+2*b*d**3*f**3*g**3*i*k*m*p";
"-4*b**2*c**2*d**2*f**2*g*h*i*k*m*p-2*b*c*d**2*f**3*g**2*h*i*k*m*p+2*d**2*f**4*g**3*h*i*k*m*p";
"+2*b**2*c**3*d*f**2*h**2*i*k*m*p-2*b*c**2*d*f**3*g*h**2*i*k*m*p-4*c*d*f**4*g**2*h**2*i*k*m*p";
"+2*b*c**3*f**3*h**3*i*k*m*p+2*c**2*f**4*g*h**3*i*k*m*p+2*b**2*c*d**3*f*g*i*j*k**2*m*p";
"+6*b*d**3*f**2*g**2*i*j*k**2*m*p-2*b**2*c**2*d**2*f*h*i*j*k**2*m*p-8*b*c*d**2*f**2*g*h*i*j*k**2*m*p";
"+6*d**2*f**3*g**2*h*i*j*k**2*m*p+2*b*c**2*d*f**2*h**2*i*j*k**2*m*p-10*c*d*f**3*g*h**2*i*j*k**2*m*p";
"+4*c**2*f**3*h**3*i*j*k**2*m*p+4*b*d**3*f*g*i*j**2*k**3*m*p-4*b*c*d**2*f*h*i*j**2*k**3*m*p";
"+4*d**2*f**2*g*h*i*j**2*k**3*m*p-4*c*d*f**2*h**2*i*j**2*k**3*m*p-2*b**2*c**2*d**2*f**2*g**2*i*l*m*p";
"-4*b*c*d**2*f**3*g**3*i*l*m*p-2*d**2*f**4*g**4*i*l*m*p+4*b**2*c**3*d*f**2*g*h*i*l*m*p";
"+8*b*c**2*d*f**3*g**2*h*i*l*m*p+4*c*d*f**4*g**3*h*i*l*m*p-2*b**2*c**4*f**2*h**2*i*l*m*p";
"-4*b*c**3*f**3*g*h**2*i*l*m*p-2*c**2*f**4*g**2*h**2*i*l*m*p-4*b**2*c**2*d**2*f*g*i*j*k*l*m*p";
"-10*b*c*d**2*f**2*g**2*i*j*k*l*m*p-6*d**2*f**3*g**3*i*j*k*l*m*p+4*b**2*c**3*d*f*h*i*j*k*l*m*p";
"+12*b*c**2*d*f**2*g*h*i*j*k*l*m*p+8*c*d*f**3*g**2*h*i*j*k*l*m*p-2*b*c**3*f**2*h**2*i*j*k*l*m*p";
"-2*c**2*f**3*g*h**2*i*j*k*l*m*p-8*b*c*d**2*f*g*i*j**2*k**2*l*m*p-4*d**2*f**2*g**2*i*j**2*k**2*l*m*p";
"+8*b*c**2*d*f*h*i*j**2*k**2*l*m*p+4*c**2*f**2*h**2*i*j**2*k**2*l*m*p+2*b**2*c**3*d*f*g*i*j*l**2*m*p";
"+4*b*c**2*d*f**2*g**2*i*j*l**2*m*p+2*c*d*f**3*g**3*i*j*l**2*m*p-2*b**2*c**4*f*h*i*j*l**2*m*p";
"-4*b*c**3*f**2*g*h*i*j*l**2*m*p-2*c**2*f**3*g**2*h*i*j*l**2*m*p+4*b*c**2*d*f*g*i*j**2*k*l**2*m*p";
"+4*c*d*f**2*g**2*i*j**2*k*l**2*m*p-4*b*c**3*f*h*i*j**2*k*l**2*m*p-4*c**2*f**2*g*h*i*j**2*k*l**2*m*p";
"-2*b**2*c*d**3*f*g*i**2*k**2*n*p-4*b*d**3*f**2*g**2*i**2*k**2*n*p+2*b**2*c**2*d**2*f*h*i**2*k**2*n*p";
"+4*b*c*d**2*f**2*g*h*i**2*k**2*n*p-4*d**2*f**3*g**2*h*i**2*k**2*n*p+6*c*d*f**3*g*h**2*i**2*k**2*n*p";
"-2*c**2*f**3*h**3*i**2*k**2*n*p-4*b*d**3*f*g*i**2*j*k**3*n*p+4*b*c*d**2*f*h*i**2*j*k**3*n*p";
"-4*d**2*f**2*g*h*i**2*j*k**3*n*p+4*c*d*f**2*h**2*i**2*j*k**3*n*p+4*b**2*c**2*d**2*f*g*i**2*k*l*n*p";
"+8*b*c*d**2*f**2*g**2*i**2*k*l*n*p+4*d**2*f**3*g**3*i**2*k*l*n*p-4*b**2*c**3*d*f*h*i**2*k*l*n*p";
"-8*b*c**2*d*f**2*g*h*i**2*k*l*n*p-4*c*d*f**3*g**2*h*i**2*k*l*n*p+8*b*c*d**2*f*g*i**2*j*k**2*l*n*p";
"+4*d**2*f**2*g**2*i**2*j*k**2*l*n*p-8*b*c**2*d*f*h*i**2*j*k**2*l*n*p-4*c**2*f**2*h**2*i**2*j*k**2*l*n*p";
"-2*b**2*c**3*d*f*g*i**2*l**2*n*p-4*b*c**2*d*f**2*g**2*i**2*l**2*n*p-2*c*d*f**3*g**3*i**2*l**2*n*p";
"+2*b**2*c**4*f*h*i**2*l**2*n*p+4*b*c**3*f**2*g*h*i**2*l**2*n*p+2*c**2*f**3*g**2*h*i**2*l**2*n*p";
"-4*b*c**2*d*f*g*i**2*j*k*l**2*n*p-4*c*d*f**2*g**2*i**2*j*k*l**2*n*p+4*b*c**3*f*h*i**2*j*k*l**2*n*p";
"+4*c**2*f**2*g*h*i**2*j*k*l**2*n*p+2*b**2*c*d**3*f**2*g**2*m**2*o*p+2*b*d**3*f**3*g**3*m**2*o*p";
"-4*b**2*c**2*d**2*f**2*g*h*m**2*o*p-2*b*c*d**2*f**3*g**2*h*m**2*o*p+2*d**2*f**4*g**3*h*m**2*o*p";
"+2*b**2*c**3*d*f**2*h**2*m**2*o*p-2*b*c**2*d*f**3*g*h**2*m**2*o*p-4*c*d*f**4*g**2*h**2*m**2*o*p";
"+2*b*c**3*f**3*h**3*m**2*o*p+2*c**2*f**4*g*h**3*m**2*o*p+4*b**2*c*d**3*f*g*j*k*m**2*o*p";
"+4*b*d**3*f**2*g**2*j*k*m**2*o*p-4*b**2*c**2*d**2*f*h*j*k*m**2*o*p+4*d**2*f**3*g**2*h*j*k*m**2*o*p";
"-4*b*c**2*d*f**2*h**2*j*k*m**2*o*p-4*c*d*f**3*g*h**2*j*k*m**2*o*p+2*b**2*c*d**3*j**2*k**2*m**2*o*p";
"+2*b*d**3*f*g*j**2*k**2*m**2*o*p+2*b*c*d**2*f*h*j**2*k**2*m**2*o*p+2*d**2*f**2*g*h*j**2*k**2*m**2*o*p";
"-4*b**2*c**2*d**2*f*g*j*l*m**2*o*p-4*b*c*d**2*f**2*g**2*j*l*m**2*o*p+4*b**2*c**3*d*f*h*j*l*m**2*o*p";
"-4*c*d*f**3*g**2*h*j*l*m**2*o*p+4*b*c**3*f**2*h**2*j*l*m**2*o*p+4*c**2*f**3*g*h**2*j*l*m**2*o*p";
"-4*b**2*c**2*d**2*j**2*k*l*m**2*o*p-4*b*c*d**2*f*g*j**2*k*l*m**2*o*p-4*b*c**2*d*f*h*j**2*k*l*m**2*o*p";
"-4*c*d*f**2*g*h*j**2*k*l*m**2*o*p+2*b**2*c**3*d*j**2*l**2*m**2*o*p+2*b*c**2*d*f*g*j**2*l**2*m**2*o*p";
"+2*b*c**3*f*h*j**2*l**2*m**2*o*p+2*c**2*f**2*g*h*j**2*l**2*m**2*o*p-4*b**2*c*d**3*f*g*i*k*m*n*o*p";
"-2*b*d**3*f**2*g**2*i*k*m*n*o*p+4*b**2*c**2*d**2*f*h*i*k*m*n*o*p-4*b*c*d**2*f**2*g*h*i*k*m*n*o*p";
"-2*d**2*f**3*g**2*h*i*k*m*n*o*p+6*b*c**2*d*f**2*h**2*i*k*m*n*o*p+2*c**2*f**3*h**3*i*k*m*n*o*p";
"-4*b**2*c*d**3*i*j*k**2*m*n*o*p-2*b*d**3*f*g*i*j*k**2*m*n*o*p-6*b*c*d**2*f*h*i*j*k**2*m*n*o*p";
"-2*d**2*f**2*g*h*i*j*k**2*m*n*o*p-2*c*d*f**2*h**2*i*j*k**2*m*n*o*p+4*b**2*c**2*d**2*f*g*i*l*m*n*o*p";
"+6*b*c*d**2*f**2*g**2*i*l*m*n*o*p+2*d**2*f**3*g**3*i*l*m*n*o*p-4*b**2*c**3*d*f*h*i*l*m*n*o*p";
"-4*b*c**2*d*f**2*g*h*i*l*m*n*o*p-2*b*c**3*f**2*h**2*i*l*m*n*o*p-2*c**2*f**3*g*h**2*i*l*m*n*o*p";
"+8*b**2*c**2*d**2*i*j*k*l*m*n*o*p+8*b*c*d**2*f*g*i*j*k*l*m*n*o*p+2*d**2*f**2*g**2*i*j*k*l*m*n*o*p";
"+8*b*c**2*d*f*h*i*j*k*l*m*n*o*p+4*c*d*f**2*g*h*i*j*k*l*m*n*o*p+2*c**2*f**2*h**2*i*j*k*l*m*n*o*p";
"-4*b**2*c**3*d*i*j*l**2*m*n*o*p-6*b*c**2*d*f*g*i*j*l**2*m*n*o*p-2*c*d*f**2*g**2*i*j*l**2*m*n*o*p";
"-2*b*c**3*f*h*i*j*l**2*m*n*o*p-2*c**2*f**2*g*h*i*j*l**2*m*n*o*p+2*b**2*c*d**3*i**2*k**2*n**2*o*p";
"+4*b*c*d**2*f*h*i**2*k**2*n**2*o*p+2*c*d*f**2*h**2*i**2*k**2*n**2*o*p-4*b**2*c**2*d**2*i**2*k*l*n**2*o*p";
"-4*b*c*d**2*f*g*i**2*k*l*n**2*o*p-4*b*c**2*d*f*h*i**2*k*l*n**2*o*p-4*c*d*f**2*g*h*i**2*k*l*n**2*o*p";
"+2*b**2*c**3*d*i**2*l**2*n**2*o*p+4*b*c**2*d*f*g*i**2*l**2*n**2*o*p+2*c*d*f**2*g**2*i**2*l**2*n**2*o*p";
"-b**2*c**2*d**2*f**2*g**2*m**2*p**2-2*b*c*d**2*f**3*g**3*m**2*p**2-d**2*f**4*g**4*m**2*p**2";
"+2*b**2*c**3*d*f**2*g*h*m**2*p**2+4*b*c**2*d*f**3*g**2*h*m**2*p**2+2*c*d*f**4*g**3*h*m**2*p**2";
"-b**2*c**4*f**2*h**2*m**2*p**2-2*b*c**3*f**3*g*h**2*m**2*p**2-c**2*f**4*g**2*h**2*m**2*p**2";
"-2*b**2*c**2*d**2*f*g*j*k*m**2*p**2-4*b*c*d**2*f**2*g**2*j*k*m**2*p**2-2*d**2*f**3*g**3*j*k*m**2*p**2";
"+2*b**2*c**3*d*f*h*j*k*m**2*p**2+4*b*c**2*d*f**2*g*h*j*k*m**2*p**2+2*c*d*f**3*g**2*h*j*k*m**2*p**2";
"-b**2*c**2*d**2*j**2*k**2*m**2*p**2-2*b*c*d**2*f*g*j**2*k**2*m**2*p**2-d**2*f**2*g**2*j**2*k**2*m**2*p**2";
"+2*b**2*c**3*d*f*g*j*l*m**2*p**2+4*b*c**2*d*f**2*g**2*j*l*m**2*p**2+2*c*d*f**3*g**3*j*l*m**2*p**2";
"-2*b**2*c**4*f*h*j*l*m**2*p**2-4*b*c**3*f**2*g*h*j*l*m**2*p**2-2*c**2*f**3*g**2*h*j*l*m**2*p**2";
"+2*b**2*c**3*d*j**2*k*l*m**2*p**2+4*b*c**2*d*f*g*j**2*k*l*m**2*p**2+2*c*d*f**2*g**2*j**2*k*l*m**2*p**2";
"-b**2*c**4*j**2*l**2*m**2*p**2-2*b*c**3*f*g*j**2*l**2*m**2*p**2-c**2*f**2*g**2*j**2*l**2*m**2*p**2";
"+2*b**2*c**2*d**2*f*g*i*k*m*n*p**2+2*b*c*d**2*f**2*g**2*i*k*m*n*p**2-2*b**2*c**3*d*f*h*i*k*m*n*p**2";
"+2*c*d*f**3*g**2*h*i*k*m*n*p**2-2*b*c**3*f**2*h**2*i*k*m*n*p**2-2*c**2*f**3*g*h**2*i*k*m*n*p**2";
"+2*b**2*c**2*d**2*i*j*k**2*m*n*p**2+2*b*c*d**2*f*g*i*j*k**2*m*n*p**2+2*b*c**2*d*f*h*i*j*k**2*m*n*p**2";
"+2*c*d*f**2*g*h*i*j*k**2*m*n*p**2-2*b**2*c**3*d*f*g*i*l*m*n*p**2-4*b*c**2*d*f**2*g**2*i*l*m*n*p**2";
"-2*c*d*f**3*g**3*i*l*m*n*p**2+2*b**2*c**4*f*h*i*l*m*n*p**2+4*b*c**3*f**2*g*h*i*l*m*n*p**2";
"+2*c**2*f**3*g**2*h*i*l*m*n*p**2-4*b**2*c**3*d*i*j*k*l*m*n*p**2-6*b*c**2*d*f*g*i*j*k*l*m*n*p**2";
"-2*c*d*f**2*g**2*i*j*k*l*m*n*p**2-2*b*c**3*f*h*i*j*k*l*m*n*p**2-2*c**2*f**2*g*h*i*j*k*l*m*n*p**2";
"+2*b**2*c**4*i*j*l**2*m*n*p**2+4*b*c**3*f*g*i*j*l**2*m*n*p**2+2*c**2*f**2*g**2*i*j*l**2*m*n*p**2";
"-b**2*c**2*d**2*i**2*k**2*n**2*p**2-2*b*c**2*d*f*h*i**2*k**2*n**2*p**2-c**2*f**2*h**2*i**2*k**2*n**2*p**2";
"+2*b**2*c**3*d*i**2*k*l*n**2*p**2+2*b*c**2*d*f*g*i**2*k*l*n**2*p**2+2*b*c**3*f*h*i**2*k*l*n**2*p**2";
"+2*c**2*f**2*g*h*i**2*k*l*n**2*p**2-b**2*c**4*i**2*l**2*n**2*p**2-2*b*c**3*f*g*i**2*l**2*n**2*p**2";
"-c**2*f**2*g**2*i**2*l**2*n**2*p**2+4*d**2*f**2*g**2*X-8*c*d*f**2*g*h*X+4*c**2*f**2*h**2*X+8*d**2*f*g*j*k*X";
"-8*c*d*f*h*j*k*X+4*d**2*j**2*k**2*X-8*c*d*f*g*j*l*X+8*c**2*f*h*j*l*X-8*c*d*j**2*k*l*X+4*c**2*j**2*l**2*X";
"-2*b*d**3*f*g*i*j*k**2*Y+2*b*c*d**2*f*h*i*j*k**2*Y-2*d**2*f**2*g*h*i*j*k**2*Y+2*c*d*f**2*h**2*i*j*k**2*Y";
"+4*b*c*d**2*f*g*i*j*k*l*Y+2*d**2*f**2*g**2*i*j*k*l*Y-4*b*c**2*d*f*h*i*j*k*l*Y-2*c**2*f**2*h**2*i*j*k*l*Y";
"-2*b*c**2*d*f*g*i*j*l**2*Y-2*c*d*f**2*g**2*i*j*l**2*Y+2*b*c**3*f*h*i*j*l**2*Y+2*c**2*f**2*g*h*i*j*l**2*Y";
"-2*b*d**3*f*g*j*k*m*o*Y+2*b*c*d**2*f*h*j*k*m*o*Y-2*d**2*f**2*g*h*j*k*m*o*Y+2*c*d*f**2*h**2*j*k*m*o*Y";
"-2*b*d**3*j**2*k**2*m*o*Y-2*d**2*f*h*j**2*k**2*m*o*Y+2*b*c*d**2*f*g*j*l*m*o*Y+4*d**2*f**2*g**2*j*l*m*o*Y";
"-2*b*c**2*d*f*h*j*l*m*o*Y-6*c*d*f**2*g*h*j*l*m*o*Y+2*c**2*f**2*h**2*j*l*m*o*Y+4*b*c*d**2*j**2*k*l*m*o*Y";
"+4*d**2*f*g*j**2*k*l*m*o*Y-2*b*c**2*d*j**2*l**2*m*o*Y-4*c*d*f*g*j**2*l**2*m*o*Y+2*c**2*f*h*j**2*l**2*m*o*Y";
"-2*b*d**3*f*g*i*k*n*o*Y+2*b*c*d**2*f*h*i*k*n*o*Y-2*d**2*f**2*g*h*i*k*n*o*Y+2*c*d*f**2*h**2*i*k*n*o*Y";
"+2*b*d**3*i*j*k**2*n*o*Y+2*d**2*f*h*i*j*k**2*n*o*Y+2*b*c*d**2*f*g*i*l*n*o*Y-2*d**2*f**2*g**2*i*l*n*o*Y";
"-2*b*c**2*d*f*h*i*l*n*o*Y+6*c*d*f**2*g*h*i*l*n*o*Y-4*c**2*f**2*h**2*i*l*n*o*Y-4*b*c*d**2*i*j*k*l*n*o*Y";
"-6*d**2*f*g*i*j*k*l*n*o*Y+2*c*d*f*h*i*j*k*l*n*o*Y+2*b*c**2*d*i*j*l**2*n*o*Y+6*c*d*f*g*i*j*l**2*n*o*Y";
"-4*c**2*f*h*i*j*l**2*n*o*Y-2*b*d**3*f*g*m*n*o**2*Y+2*b*c*d**2*f*h*m*n*o**2*Y-2*d**2*f**2*g*h*m*n*o**2*Y";
"+2*c*d*f**2*h**2*m*n*o**2*Y-2*b*d**3*j*k*m*n*o**2*Y-2*d**2*f*h*j*k*m*n*o**2*Y+2*b*c*d**2*j*l*m*n*o**2*Y";
"+2*c*d*f*h*j*l*m*n*o**2*Y+2*b*d**3*i*k*n**2*o**2*Y+2*d**2*f*h*i*k*n**2*o**2*Y-2*b*c*d**2*i*l*n**2*o**2*Y";
"-2*d**2*f*g*i*l*n**2*o**2*Y+2*b*c*d**2*f*g*j*k*m*p*Y-2*d**2*f**2*g**2*j*k*m*p*Y-2*b*c**2*d*f*h*j*k*m*p*Y";
"+6*c*d*f**2*g*h*j*k*m*p*Y-4*c**2*f**2*h**2*j*k*m*p*Y+2*b*c*d**2*j**2*k**2*m*p*Y-2*d**2*f*g*j**2*k**2*m*p*Y";
"+4*c*d*f*h*j**2*k**2*m*p*Y-2*b*c**2*d*f*g*j*l*m*p*Y-2*c*d*f**2*g**2*j*l*m*p*Y+2*b*c**3*f*h*j*l*m*p*Y";
"+2*c**2*f**2*g*h*j*l*m*p*Y-4*b*c**2*d*j**2*k*l*m*p*Y-4*c**2*f*h*j**2*k*l*m*p*Y+2*b*c**3*j**2*l**2*m*p*Y";
"+2*c**2*f*g*j**2*l**2*m*p*Y+2*b*c*d**2*f*g*i*k*n*p*Y+4*d**2*f**2*g**2*i*k*n*p*Y-2*b*c**2*d*f*h*i*k*n*p*Y";
"-6*c*d*f**2*g*h*i*k*n*p*Y+2*c**2*f**2*h**2*i*k*n*p*Y-2*b*c*d**2*i*j*k**2*n*p*Y+4*d**2*f*g*i*j*k**2*n*p*Y";
"-6*c*d*f*h*i*j*k**2*n*p*Y-2*b*c**2*d*f*g*i*l*n*p*Y-2*c*d*f**2*g**2*i*l*n*p*Y+2*b*c**3*f*h*i*l*n*p*Y";
"+2*c**2*f**2*g*h*i*l*n*p*Y+4*b*c**2*d*i*j*k*l*n*p*Y-2*c*d*f*g*i*j*k*l*n*p*Y+6*c**2*f*h*i*j*k*l*n*p*Y";
"-2*b*c**3*i*j*l**2*n*p*Y-2*c**2*f*g*i*j*l**2*n*p*Y+4*b*c*d**2*f*g*m*n*o*p*Y+2*d**2*f**2*g**2*m*n*o*p*Y";
"-4*b*c**2*d*f*h*m*n*o*p*Y-2*c**2*f**2*h**2*m*n*o*p*Y+4*b*c*d**2*j*k*m*n*o*p*Y+2*d**2*f*g*j*k*m*n*o*p*Y";
"+2*c*d*f*h*j*k*m*n*o*p*Y-4*b*c**2*d*j*l*m*n*o*p*Y-2*c*d*f*g*j*l*m*n*o*p*Y-2*c**2*f*h*j*l*m*n*o*p*Y";
"-4*b*c*d**2*i*k*n**2*o*p*Y-4*c*d*f*h*i*k*n**2*o*p*Y+4*b*c**2*d*i*l*n**2*o*p*Y+4*c*d*f*g*i*l*n**2*o*p*Y";
"-2*b*c**2*d*f*g*m*n*p**2*Y-2*c*d*f**2*g**2*m*n*p**2*Y+2*b*c**3*f*h*m*n*p**2*Y+2*c**2*f**2*g*h*m*n*p**2*Y";
"-2*b*c**2*d*j*k*m*n*p**2*Y-2*c*d*f*g*j*k*m*n*p**2*Y+2*b*c**3*j*l*m*n*p**2*Y+2*c**2*f*g*j*l*m*n*p**2*Y";
"+2*b*c**2*d*i*k*n**2*p**2*Y+2*c**2*f*h*i*k*n**2*p**2*Y-2*b*c**3*i*l*n**2*p**2*Y-2*c**2*f*g*i*l*n**2*p**2*Y";
"-d**2*j**2*k**2*Y**2+2*c*d*j**2*k*l*Y**2-c**2*j**2*l**2*Y**2-2*d**2*j*k*n*o*Y**2+2*c*d*j*l*n*o*Y**2";
"-d**2*n**2*o**2*Y**2+2*c*d*j*k*n*p*Y**2-2*c**2*j*l*n*p*Y**2+2*c*d*n**2*o*p*Y**2-c**2*n**2*p**2*Y**2"]%string.
(* the numerator, DoubleCollinearLimit_D_and_S_e.py:4 *)
Definition text_num : pystr := text_B ++ lit "-mpmath.sqrt((" ++ text_B1 ++ lit ")**2-4*(" ++ text_A ++ lit ")*(" ++ text_C ++ lit "))".
(* DoubleCollinearLimit_D_and_S_e.py:4 *)
Definition text_e : pystr := lit "(" ++ text_num ++ lit ")/(2*(" ++ text_A ++ lit "))".
(* one of the four fractions in DoubleCollinearLimit_D_and_S_a.py:4 *)
Definition text_part (x : pystr) : pystr := lit "(" ++ x ++ lit "*(" ++ text_num ++ lit "))/(2*(" ++ text_A ++ lit "))".
(* DoubleCollinearLimit_D_and_S_a.py:4 *)
Definition text_a : pystr := lit "(1/(d*f*g-c*f*h+d*j*k-c*j*l))*(b*d*i*k+f*h*i*k-b*c*i*l-f*g*i*l-Y+" ++ text_part (lit "b*d*g") ++ lit "-" ++
  text_part (lit "b*c*h") ++ lit "-" ++ text_part (lit "h*j*k") ++ lit "+" ++ text_part (lit "g*j*l") ++ lit ")".
