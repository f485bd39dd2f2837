(* The permutations of an ideal that are different ideals: LipsIdeal.__call__, image and
   equivalenceClass, lips/algebraic_geometry/covariant_ideal.py:71-90.  An ideal is its list of
   generators; when two ideals are equal is for syngular to say, so that equality is a parameter.
   Simplification: the hashes of ideals agree with their equality. *)
From Coq Require Import List ZArith Bool.
From Verif Require Import Base Symm Str Gen Ideal.
Import ListNotations.
Open Scope res_scope.

(* a symmetry: a string of digits and whether to conjugate; symmetries.py:5-13 *)
Definition rule := (pstring * bool)%type.
(* == of symmetries, covariant_ideal.py:85 *)
Definition rule_eqb (r r' : rule) : bool := Symm.zlist_eqb (fst r) (fst r') && Bool.eqb (snd r) (snd r').
(* d[k] = v for a dictionary with its order of insertion; == of keys is [eqk].
   covariant_ideal.py:85, 89 *)
Fixpoint kset {A B} (eqk : A -> A -> bool) (k : A) (v : B) (d : list (A * B)) : list (A * B) :=
  match d with
  | [] => [(k, v)]
  | (k', v') :: t => if eqk k' k then (k', v) :: t else (k', v') :: kset eqk k v t
  end.
(* value_to_keys[v].append(k), covariant_ideal.py:86-88 *)
Fixpoint vappend {A B} (eqk : A -> A -> bool) (v : A) (k : B) (d : list (A * list B)) : list (A * list B) :=
  match d with
  | [] => [(v, [k])]
  | (v', ks) :: t => if eqk v' v then (v', ks ++ [k]) :: t else (v', ks) :: vappend eqk v k t
  end.
Section Class.
Variable ieq : list pystr -> list pystr -> bool.
(* {symmetry: self( *symmetry) for symmetry in all_symmetries(self.multiplicity)},
   covariant_ideal.py:85; __call__ with a string and a bool is image, covariant_ideal.py:71-75 *)
Definition all_perms (generators : list pystr) (multiplicity : nat) : result (list (rule * list pystr)) :=
  l <-? rmapM (fun r => rmap (pair r) (lips_image generators r)) (all_symmetries multiplicity) ;;
  Ok (fold_left (fun d kv => kset rule_eqb (fst kv) (snd kv) d) l []).
(* covariant_ideal.py:86-88 *)
Definition value_to_keys (d : list (rule * list pystr)) : list (list pystr * list rule) :=
  fold_left (fun acc kv => vappend ieq (snd kv) (fst kv) acc) d [].
(* {keys[0]: val for val, keys in value_to_keys.items()}, covariant_ideal.py:89; keys[0] of an
   empty list is an IndexError *)
Definition first_keys (d : list (list pystr * list rule)) : result (list (rule * list pystr)) :=
  l <-? rmapM (fun vk => match snd vk with [] => Err IndexError | k :: _ => Ok (k, fst vk) end) d ;;
  Ok (fold_left (fun d kv => kset rule_eqb (fst kv) (snd kv) d) l []).
(* covariant_ideal.py:82-90 *)
Definition equivalence_class (generators : list pystr) (multiplicity : nat) : result (list (rule * list pystr)) :=
  d <-? all_perms generators multiplicity ;; first_keys (value_to_keys d).
End Class.
