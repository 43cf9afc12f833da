(** The file format of the SAPPORO BDD/ZDD package, as far as dumpSapporo uses it:

      _i <number of levels>
      _o <number of outputs>
      _n <number of nodes>
      <id> <level> <0-branch> <1-branch>      one line for each node
      <output>                                one line for each output

    A branch or output is F (0-terminal), T (1-terminal) or the identifier of a node.  Identifiers are
    even; odd numbers would denote negated edges. *)
From Coq Require Import Ascii String.
From Verif Require Import Base Sem S_Text.
Local Open Scope nat_scope.

Inductive sref := SF | ST | SNode (id : nat).
Record sline := SLine { l_id : nat; l_level : nat; l_b0 : sref; l_b1 : sref }.
Record sfile := SFile { f_levels : nat; f_nodes : list sline; f_outputs : list sref }.

Definition read_ref (w : string) : option sref :=
  if String.eqb w "F" then Some SF else if String.eqb w "T" then Some ST
  else k ← number_of w; Some (SNode k).
Definition read_node (line : list ascii) : option sline :=
  match words_of line with
  | [a; b; c; d] => id ← number_of a; lv ← number_of b; r0 ← read_ref c; r1 ← read_ref d;
                    Some (SLine id lv r0 r1)
  | _ => None
  end.
Definition read_head (key : string) (line : list ascii) : option nat :=
  match words_of line with
  | [a; b] => if String.eqb a key then number_of b else None
  | _ => None
  end.
Definition read_output (line : list ascii) : option sref :=
  match words_of line with [a] => read_ref a | _ => None end.

(** The number of lines must agree with the header. *)
Definition read_file (txt : list ascii) : option sfile :=
  ls ← lines_of txt;
  match ls with
  | a :: b :: c :: rest =>
      i ← read_head "_i" a; o ← read_head "_o" b; n ← read_head "_n" c;
      if length rest =? n + o then
        nodes ← mapM read_node (take n rest);
        outs ← mapM read_output (drop n rest);
        Some (SFile i nodes outs)
      else None
  | _ => None
  end.

(** [r] may be used below level [lv] after the lines [before]. *)
Definition ref_ok (before : list sline) (lv : nat) (r : sref) : Prop :=
  match r with
  | SNode k => exists l, l ∈ before /\ l_id l = k /\ l_level l < lv
  | _ => True
  end.

(** Bottom-up order: every identifier used has been given to a node of a lower level in an earlier line;
    identifiers are different, positive and even; outputs are defined. *)
Record file_ok (f : sfile) : Prop := {
  fo_id : forall j l, f_nodes f !! j = Some l -> 0 < l_id l /\ l_id l mod 2 = 0;
  fo_distinct : forall j j' l l', f_nodes f !! j = Some l -> f_nodes f !! j' = Some l' -> l_id l = l_id l' -> j = j';
  fo_level : forall j l, f_nodes f !! j = Some l -> 0 < l_level l <= f_levels f;
  fo_branch : forall j l, f_nodes f !! j = Some l ->
     ref_ok (take j (f_nodes f)) (l_level l) (l_b0 l) /\ ref_ok (take j (f_nodes f)) (l_level l) (l_b1 l);
  fo_output : forall r, r ∈ f_outputs f -> ref_ok (f_nodes f) (S (f_levels f)) r
}.

(** A file as a DD specification: the state is a reference. *)
Definition find_line (f : sfile) (k : nat) : option sline := List.find (fun l => l_id l =? k) (f_nodes f).
Definition ref_code (f : sfile) (r : sref) : Z :=
  match r with
  | SF => 0
  | ST => -1
  | SNode k => match find_line f k with Some l => Z.of_nat (l_level l) | None => 0 end
  end%Z.
Definition file_spec (f : sfile) (r : sref) : spec := {|
  St := sref;
  ar := 2;
  get_root := (ref_code f r, r);
  get_child := fun s _ b =>
    match s with
    | SNode k => match find_line f k with
                 | Some l => let g := if b =? 0 then l_b0 l else l_b1 l in (ref_code f g, g)
                 | None => (0%Z, SF)
                 end
    | _ => (0%Z, SF)
    end;
  equal_to := fun _ _ _ => false;
  hash_code := fun _ _ => 0%N
|}.
(** The level codes met when the file is walked from reference [r]. *)
Definition file_walk (f : sfile) (r : sref) (bs : list nat) : list Z :=
  run (file_spec f r) (ref_code f r) r bs.
