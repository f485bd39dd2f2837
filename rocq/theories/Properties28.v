(* C86: the text for Mathematica. *)
From Coq Require Import Ascii String.
From Coq Require Import List ZArith Bool Lia.
From Verif Require Import Base Str Mathematica MathematicaSpec MathematicaThm.
Import ListNotations.
Open Scope Z_scope.

(* C86: the momenta of a point are declared one per line, with Mathematica's mark for exponents *)
Theorem C86_momenta : forall n s, 0 <= n ->
  Forall (fun p => complex_ok (fst (fst p)) /\ complex_ok (snd (fst p)) /\ complex_ok (fst (snd p)) /\ complex_ok (snd (snd p))) s ->
  momenta_for_mathematica n (map (fun p => ((given (fst (fst p)), given (snd (fst p))), (given (fst (snd p)), given (snd (snd p))))) s) =
  lines (numbered (fun i p => declares n i [fst (fst p); snd (fst p); fst (snd p); snd (snd p)]) 1 s).
Proof. exact momenta_text. Qed.
Print Assumptions C86_momenta.
(* the spinors, from the texts that python gives for complex numbers *)
Theorem C86_spinors : forall s s',
  Forall2 (fun p q => python_complex (fst (fst p)) (fst (fst q)) /\ python_complex (snd (fst p)) (snd (fst q)) /\
                      python_complex (fst (snd p)) (fst (snd q)) /\ python_complex (snd (snd p)) (snd (snd q))) s s' ->
  spinors_for_mathematica s = lines (numbered (fun i p => declares_spinors i (fst (fst p)) (snd (fst p)) (fst (snd p)) (snd (snd p))) 1 s').
Proof. exact spinors_text. Qed.
Print Assumptions C86_spinors.
(* what save_phase_space_point writes: every number is followed by a quote that belongs to its repr *)
Theorem C86_file : forall s, Forall (fun p => complex_ok (fst p) /\ complex_ok (snd p)) s ->
  r_for_mathematica (map (fun p => (given (fst p), given (snd p))) s) = assigns lambda_name (fun z => wolfram (fst z) ++ lit "'+" ++ wolfram (snd z) ++ lit "'I") s /\
  l_for_mathematica (map (fun p => (given (fst p), given (snd p))) s) = assigns lambda_bar_name (fun z => wolfram (fst z) ++ lit "'+" ++ wolfram (snd z) ++ lit "'I") s.
Proof. intros s H. split; [exact (r_text s H)|exact (l_text s H)]. Qed.
Print Assumptions C86_file.
(* finding: so the files of save_phase_space_point are never right, unless there are no legs: repr(x)[5:-1]
   (particles.py:532) should be repr(x)[5:-2] *)
Theorem C86_file_never : forall s, s <> [] -> Forall (fun p => complex_ok (fst p) /\ complex_ok (snd p)) s ->
  r_for_mathematica (map (fun p => (given (fst p), given (snd p))) s) <> assigns lambda_name wolfram_complex s /\
  l_for_mathematica (map (fun p => (given (fst p), given (snd p))) s) <> assigns lambda_bar_name wolfram_complex s.
Proof. exact never_meant. Qed.
Print Assumptions C86_file_never.

(* -1.5e-7 and 12.0 *)
Definition x1 : decimal := Dec true (lit "1") (Some (lit "5")) (Some (true, lit "7")).
Definition x2 : decimal := Dec false (lit "12") (Some (lit "0")) None.
Lemma x1_ok : decimal_ok x1. Proof. repeat split; try discriminate; repeat constructor; discriminate. Qed.
Lemma x2_ok : decimal_ok x2. Proof. repeat split; try discriminate; repeat constructor; discriminate. Qed.
Example C86_ex : complex_ok (x1, x2) /\ complex_ok (x2, x1) /\
  momenta_for_mathematica 300 [((given (x1, x2), given (x2, x2)), (given (x2, x1), given (x1, x1)))] =
    lit "DeclareSpinorMomentum[1, {SetPrecision[-1.5*^-7+12.0I, 300], SetPrecision[12.0+12.0I, 300], SetPrecision[12.0+-1.5*^-7I, 300], SetPrecision[-1.5*^-7+-1.5*^-7I, 300] }]" /\
  python_complex (lit "(12.0-1.5e-7j)") (lit "(12.0-1.5*^-7I)") /\
  spinors_for_mathematica [((lit "(12.0-1.5e-7j)", lit "12.0j"), (lit "(12.0-1.5e-7j)", lit "12.0j"))] =
    lit "DeclareSpinorMomentum[Sp[1], {{(12.0-1.5*^-7I)}, {12.0I}}, {{(12.0-1.5*^-7I), 12.0I}}]".
Proof.
  pose proof x1_ok. pose proof x2_ok. split; [split; assumption|]. split; [split; assumption|]. split; [vm_compute; reflexivity|]. split; [exact (both x2 x1 x2_ok x1_ok)|vm_compute; reflexivity].
Qed.
Example C86_file_ex : r_for_mathematica [(given (x1, x2), given (x2, x1))] =
  lit "Subscript[\[Lambda], 1,1] = -1.5*^-7'+12.0'I;" ++ [10] ++ lit "Subscript[\[Lambda], 1,2] = 12.0'+-1.5*^-7'I;" ++ [10].
Proof. vm_compute. reflexivity. Qed.
(* finding: the replacement of +- by - (particles.py:570) has no effect, because the quotes are removed after it *)
Theorem C86_sign_refuted : exists n s, 0 <= n /\ Forall (fun p => complex_ok (fst (fst p)) /\ complex_ok (snd (fst p)) /\ complex_ok (fst (snd p)) /\ complex_ok (snd (snd p))) s /\
  exists u v, momenta_for_mathematica n (map (fun p => ((given (fst (fst p)), given (snd (fst p))), (given (fst (snd p)), given (snd (snd p))))) s) = u ++ lit "+-" ++ v.
Proof.
  exists 300, [(((x2, x1), (x2, x2)), ((x2, x2), (x2, x2)))]. pose proof x1_ok. pose proof x2_ok. split; [discriminate|]. split; [constructor; [unfold complex_ok; cbn [fst snd]; tauto|constructor]|].
  exists (lit "DeclareSpinorMomentum[1, {SetPrecision[12.0"), (lit "1.5*^-7I, 300], SetPrecision[12.0+12.0I, 300], SetPrecision[12.0+12.0I, 300], SetPrecision[12.0+12.0I, 300] }]"). vm_compute. reflexivity.
Qed.
Print Assumptions C86_sign_refuted.
