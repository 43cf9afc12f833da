(** The bridge to SAPPOROBDD: spec/SapporoZdd.hpp, spec/SapporoBdd.hpp, eval/ToZBDD.hpp, eval/ToBDD.hpp.
    SAPPOROBDD itself is not part of the repository.  Its types and the functions that the bridge calls are modelled by
    what its manual says: a ZBDD is a finite family of finite sets of variables, a BDD is a Boolean function of the
    variables in use, given by the sets of variables for which it is true.  GetID is any function of the value. *)
From stdpp Require Import gmap sets.
From Verif Require Import Base Sem M_Table M_Eval.
Local Open Scope Z_scope.

(** ** SAPPOROBDD *)
(** the variables in use, from level 1 upward *)
Notation order := (list nat).
Notation fam := (gset (gset nat)).
(** BDD_VarOfLev; None: not a level, the library stops the program *)
Definition var_of_lev (o : order) (l : Z) : option nat := if 1 <=? l then o !! (Z.to_nat l - 1)%nat else None.
(** BDD_LevOfVar, 0 for the variable 0 that stands for none *)
Definition lev_of_var (o : order) (x : nat) : Z := match list_find (x =.) o with Some (i, _) => Z.of_nat i + 1 | None => 0 end.
(** BDD_NewVar: a new variable on top *)
Definition new_var (o : order) : order := o ++ [S (length o)].
(** Top(): the variable of the highest level that matters, 0 if there is none *)
Fixpoint topmost (p : nat -> bool) (o : order) (k : nat) : nat :=
  match k with
  | O => 0%nat
  | S k => match o !! k with Some x => if p x then x else topmost p o k | None => topmost p o k end
  end.

(** ZBDD *)
Definition z_occurs (f : fam) (x : nat) : bool := bool_decide (filter (fun s : gset nat => x ∈ s) f <> ∅).
Definition z_top (o : order) (f : fam) : nat := topmost (z_occurs f) o (length o).
Definition z_const (b : bool) : fam := if b then {[ ∅ ]} else ∅.
Definition z_offset (x : nat) (f : fam) : fam := filter (fun s : gset nat => x ∉ s) f.
Definition z_onset0 (x : nat) (f : fam) : fam := set_map (fun s : gset nat => s ∖ {[x]}) (filter (fun s : gset nat => x ∈ s) f).
Definition z_change (x : nat) (f : fam) : fam := set_map (fun s : gset nat => if decide (x ∈ s) then s ∖ {[x]} else {[x]} ∪ s) f.

(** BDD: [pw o] is the function 1 *)
Fixpoint pw (o : order) : fam :=
  match o with [] => {[ ∅ ]} | x :: o => pw o ∪ set_map (fun s : gset nat => {[x]} ∪ s) (pw o) end.
Definition b_const (o : order) (b : bool) : fam := if b then pw o else ∅.
Definition b_var (o : order) (x : nat) : fam := filter (fun s : gset nat => x ∈ s) (pw o).
Definition b_not (o : order) (f : fam) : fam := pw o ∖ f.
Definition b_at0 (o : order) (x : nat) (f : fam) : fam := filter (fun s : gset nat => s ∖ {[x]} ∈ f) (pw o).
Definition b_at1 (o : order) (x : nat) (f : fam) : fam := filter (fun s : gset nat => {[x]} ∪ s ∈ f) (pw o).
Definition b_depends (o : order) (f : fam) (x : nat) : bool := bool_decide (b_at0 o x f <> b_at1 o x f).
Definition b_top (o : order) (f : fam) : nat := topmost (b_depends o f) o (length o).

(** ** eval/ToZBDD.hpp *)
(** initialize (ToZBDD.hpp 57-61, ToBDD.hpp 54-58): new variables until topLevel + offset are in use *)
Definition enough_vars (o : order) (n : Z) : order := Nat.iter (Z.to_nat (n - Z.of_nat (length o))) new_var o.
(** evalNode (ToZBDD.hpp 67-73) *)
Definition tz_node (offset : Z) (o : order) (level : nat) (vs : list (fam * nat)) : option fam :=
  f0 ← vs !! 0%nat;
  if 0 <? Z.of_nat level + offset then
    f1 ← vs !! 1%nat;
    x ← var_of_lev o (Z.of_nat level + offset);
    Some (f0.1 ∪ z_change x f1.1)
  else Some f0.1.
(** ToZBDD (45-74); the state of the evaluator is the variable order of the library; destructLevel and getValue are
    those of DdEval *)
Definition to_zbdd (offset : Z) : evaluator :=
  Ev order fam fam (fun o n => Some (enough_vars o (Z.of_nat n + offset)))
    (fun o j => Some (o, z_const (negb (j =? 0)%nat)))
    (fun o i vs => v ← tz_node offset o i vs; Some (o, v))
    (fun o _ => Some o) (fun _ v => Some v).

(** ** eval/ToBDD.hpp *)
(** evalNode (64-73); None: the exception of line 71 *)
Definition tb_node (offset : Z) (o : order) (level : nat) (vs : list (fam * nat)) : option fam :=
  if 0 <? Z.of_nat level + offset then
    f0 ← vs !! 0%nat;
    f1 ← vs !! 1%nat;
    x ← var_of_lev o (Z.of_nat level + offset);
    Some ((f0.1 ∩ b_not o (b_var o x)) ∪ (f1.1 ∩ b_var o x))
  else None.
(** ToBDD (46-74) *)
Definition to_bdd (offset : Z) : evaluator :=
  Ev order fam fam (fun o n => Some (enough_vars o (Z.of_nat n + offset)))
    (fun o j => Some (o, b_const o (negb (j =? 0)%nat)))
    (fun o i vs => v ← tb_node offset o i vs; Some (o, v))
    (fun o _ => Some o) (fun _ v => Some v).

(** ** spec/SapporoZdd.hpp *)
(** the loop of lines 69-71 and 83-85; None: more rounds than [fuel].  BDD_VarOfLev is applied to the variable Top(). *)
Fixpoint sz_strip (o : order) (fuel : nat) (f : fam) : option fam :=
  match fuel with
  | O => None
  | S fuel =>
      if 1 <=? lev_of_var o (z_top o f) then
        x ← var_of_lev o (Z.of_nat (z_top o f));
        sz_strip o fuel (z_offset x f)
      else Some f
  end.
(** lines 66-72 and 79-86: the level code and the state left behind; the loop ends, if at all, after at most one round
    for each variable *)
Definition sz_level (o : order) (offset : Z) (f : fam) : option (Z * fam) :=
  let level := lev_of_var o (z_top o f) - offset in
  if 1 <=? level then Some (level, f)
  else f' ← sz_strip o (S (length o)) f; Some (if bool_decide (f' = z_const true) then -1 else 0, f').
(** getRoot (63-73) *)
Definition sz_root (o : order) (offset : Z) (f : fam) : option (Z * fam) := sz_level o offset f.
(** getChild (75-87); None also if the assertion of line 80 fails *)
Definition sz_child (o : order) (offset : Z) (f : fam) (level : Z) (take : bool) : option (Z * fam) :=
  x ← var_of_lev o (level + offset);
  let f := if take then z_onset0 x f else z_offset x f in
  if lev_of_var o (z_top o f) - offset <? level then sz_level o offset f else None.
(** SapporoZdd (46-92); [id] is GetID *)
Definition sz_spec (o : order) (offset : Z) (id : fam -> N) (f : fam) : spec := {|
  St := fam;
  ar := 2;
  get_root := default (0, f) (sz_root o offset f);
  get_child := fun s level b => default (0, s) (sz_child o offset s level (negb (b =? 0)%nat));
  equal_to := fun _ s s' => bool_decide (s = s');
  hash_code := fun _ s => id s
|}.

(** ** spec/SapporoBdd.hpp *)
(** lines 66-70 and 77-82; None: the exception "invalid offset" *)
Definition sb_level (o : order) (offset : Z) (f : fam) : option (Z * fam) :=
  if (b_top o f =? 0)%nat then Some (if bool_decide (f = b_const o true) then -1 else 0, f)
  else let level := lev_of_var o (b_top o f) - offset in
    if 1 <=? level then Some (level, f) else None.
(** getRoot (63-71) *)
Definition sb_root (o : order) (offset : Z) (f : fam) : option (Z * fam) := sb_level o offset f.
(** getChild (73-83); None also if the assertion of line 80 fails *)
Definition sb_child (o : order) (offset : Z) (f : fam) (level : Z) (take : bool) : option (Z * fam) :=
  x ← var_of_lev o (level + offset);
  let f := if take then b_at1 o x f else b_at0 o x f in
  if (b_top o f =? 0)%nat || (lev_of_var o (b_top o f) - offset <? level) then sb_level o offset f else None.
(** SapporoBdd (46-88) *)
Definition sb_spec (o : order) (offset : Z) (id : fam -> N) (f : fam) : spec := {|
  St := fam;
  ar := 2;
  get_root := default (0, f) (sb_root o offset f);
  get_child := fun s level b => default (0, s) (sb_child o offset s level (negb (b =? 0)%nat));
  equal_to := fun _ s s' => bool_decide (s = s');
  hash_code := fun _ s => id s
|}.
