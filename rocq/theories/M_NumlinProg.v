(** apps/numberlink: Board::transpose and the program ddnumlin -a. *)
From Verif Require Import Base Sem M_Table M_Engine M_Builder M_Ops M_Conv M_Subset Props_Reduce S_Api M_Numlin.
Local Open Scope nat_scope.

(** transposed_matrix (Board.cpp 50-62); [None] if the matrix has no row, since the code reads a[0] *)
Definition transposed_matrix {A} (a : list (list A)) : option (list (list A)) :=
  r0 ← a !! 0;
  mapM (fun i => mapM (fun j => r ← a !! j; r !! i) (seq 0 (length a))) (seq 0 (length r0)).

(** A Board object: the numbers, hlink and vlink *)
Definition drawn : Type := board * list (list bool) * list (list bool).
(** Board::transpose (Board.cpp 66-72) *)
Definition b_transpose (x : drawn) : option drawn :=
  let '(b, h, v) := x in
  num ← transposed_matrix (b_number b);
  tmp ← transposed_matrix h;
  h' ← transposed_matrix v;
  Some (Board (b_cols b) (b_rows b) num, h', tmp).

(** Board::init (Board.cpp 28-46): the links of a board that was read *)
Definition no_links (r c : nat) : list (list bool) := replicate r (replicate c false).
Definition b_read (b : board) : drawn := (b, no_links (b_rows b) (b_cols b - 1), no_links (b_rows b - 1) (b_cols b)).

(** "if (quiz.rows < quiz.cols) { quiz.transpose(); transposed = true; }" (ddnumlin.cpp 112-117) *)
Definition nl_prepare (b : board) : option (drawn * bool) :=
  if b_rows b <? b_cols b then x ← b_transpose (b_read b); Some (x, true) else Some (b_read b, false).

(** run with option -a (ddnumlin.cpp 119-135), for any of the schedules of -p.  The reduction and the subsetting are those of
    DdStructure. *)
Definition ddnumlin_all (b : board) (max_blank : Z) (d : dd) : Prop :=
  exists quiz h v transposed d0 d1 d2, nl_prepare b = Some ((quiz, h, v), transposed) /\
    constructed (zdd_lookahead (dz_spec quiz)) d0 /\ reduction false true d0 d1 /\
    subsetted d1 (zdd_lookahead (nl_spec (Numlin quiz max_blank))) d2 /\ reduction false true d2 d.

(** what output draws for a set of levels (ddnumlin.cpp 69-83) *)
Definition nl_answer (quiz : board) (transposed : bool) (set : vec) : option drawn :=
  let top := b_rows quiz * (b_cols quiz - 1) in
  let hlink i j := negb (set (top - i * (b_cols quiz - 1) - j) =? 0) in
  let h := map (fun i => map (hlink i) (seq 0 (b_cols quiz - 1))) (seq 0 (b_rows quiz)) in
  v ← makeVerticalLinks quiz hlink;
  if transposed then b_transpose (quiz, h, v) else Some (quiz, h, v).
