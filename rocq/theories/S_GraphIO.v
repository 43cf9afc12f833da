(** The text formats of graphs.

    Edge list: every line ends with the line end character; a line is empty or consists of two words, the names of the end
    vertices of an edge.
    Adjacency list: the k-th line (k = 1, 2, ...) lists the neighbors of vertex k.
    Vertex groups: every line lists the vertices of one group. *)
From Coq Require Import Ascii String.
From Verif Require Import Base S_Text M_Text.
Local Open Scope nat_scope.

(** white space: the blank and the control characters 9 to 13 *)
Definition whitespace (c : ascii) : bool := let k := nat_of_ascii c in ((9 <=? k) && (k <=? 13)) || (k =? 32).
(** The words of a line: the maximal pieces without white space.  [cur] is the word in progress. *)
Fixpoint words_from (cur : list ascii) (l : list ascii) : list string :=
  match l with
  | [] => match cur with [] => [] | _ => [string_of_list_ascii cur] end
  | c :: l' => if whitespace c
               then match cur with [] => words_from [] l' | _ => string_of_list_ascii cur :: words_from [] l' end
               else words_from (cur ++ [c]) l'
  end.
Definition line_words (l : list ascii) : list string := words_from [] l.

(** edge lists *)
Fixpoint edge_lines (ls : list (list ascii)) : option (list (string * string)) :=
  match ls with
  | [] => Some []
  | l :: ls' =>
      match line_words l with
      | [] => edge_lines ls'
      | [a; b] => es ← edge_lines ls'; Some ((a, b) :: es)
      | _ => None
      end
  end.

(** the numbers in the lines, each with the number of its line, counted from [k] *)
Fixpoint numbered (k : nat) (ls : list (list ascii)) : option (list (nat * nat)) :=
  match ls with
  | [] => Some []
  | l :: ls' => ns ← mapM number_of (line_words l); rest ← numbered (S k) ls'; Some (map (pair k) ns ++ rest)
  end.
(** the lines of a text; the last line needs no line end *)
Definition text_lines (txt : list ascii) : list (list ascii) := cut nl txt.

(** decimal names *)
Definition decimal (n : nat) : string := string_of_list_ascii (dec n).

(** the last line that lists [v] *)
Definition last_line (es : list (nat * nat)) (v : nat) : option nat :=
  last (map fst (List.filter (fun e => snd e =? v) es)).
