(** Reading a text: lines, words and decimal numbers. *)
From Coq Require Import Ascii String.
From Verif Require Import Base.
Local Open Scope nat_scope.

(** The pieces of a text between the occurrences of a character ("a b" gives [a; b], "" gives [""]). *)
Fixpoint cut (c : ascii) (l : list ascii) : list (list ascii) :=
  match l with
  | [] => [[]]
  | x :: l' => if Ascii.eqb x c then [] :: cut c l'
               else match cut c l' with [] => [[x]] | w :: ws => (x :: w) :: ws end
  end.

(** Every line ends with the character 10. *)
Definition lines_of (txt : list ascii) : option (list (list ascii)) :=
  let ls := cut (ascii_of_nat 10) txt in
  match last ls with
  | Some [] => Some (removelast ls)
  | _ => None
  end.
Definition words_of (line : list ascii) : list string :=
  map string_of_list_ascii (cut (ascii_of_nat 32) line).

(** A decimal number. *)
Definition digit_of (c : ascii) : option nat :=
  let k := nat_of_ascii c in if (48 <=? k) && (k <=? 57) then Some (k - 48) else None.
Definition number_of (w : string) : option nat :=
  match list_ascii_of_string w with
  | [] => None
  | l => ofold (fun v c => d ← digit_of c; Some (10 * v + d)) l 0
  end.
