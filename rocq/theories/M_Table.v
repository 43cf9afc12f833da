(** Model of dd/Node.hpp (abstract view of NodeId), dd/DataTable.hpp and
    dd/NodeTable.hpp (node table proper).  The bit level encoding of NodeId is in M_NodeId.v. *)
From Verif Require Import Base Sem.

(** Node.hpp 46-136: row, column and attribute of a NodeId. *)
Record nid := Nid { row : nat; col : nat; attr : bool }.

(** Node.hpp 57-61 *)
Definition mk (r c : nat) : nid := Nid r c false.
(** NodeId(0) and NodeId(1): the terminals. *)
Definition n0 : nid := mk 0 0.
Definition n1 : nid := mk 0 1.

(** Node.hpp 99-101: the code without attribute. *)
Definition code (f : nid) : nat * nat := (row f, col f).
(** Node.hpp 107-109: operator== compares codes, ignoring the attribute. *)
Definition neqb (f g : nid) : bool := (row f =? row g) && (col f =? col g).
(** Node.hpp 95-97: code_ == 1 (no attribute, terminal 1) or attribute set. *)
Definition hasEmpty (f : nid) : bool := (neqb f n1 && negb (attr f)) || attr f.

(** Node.hpp 151-197: a node is the array of its ARITY branches. *)
Notation node := (list nid).
(** Node.hpp 179-184 *)
Definition node_eqb (p q : node) : bool :=
  (length p =? length q) && forallb (fun x => neqb (fst x) (snd x)) (zip p q).

(** DataTable.hpp 35-: rows of nodes. *)
Notation table := (list (list (list nid))).

(** A reference that is no valid reference: contents of uninitialised nodes. *)
Definition junk : nid := mk 0 2.
Definition junk_node (a : nat) : node := replicate a junk.

(** NodeTable.hpp 68-74: initTerminals makes row 0 two nodes Node(j, j). *)
Definition terminal_row (a : nat) : list node := [replicate a n0; replicate a n1].

(** NodeTable.hpp 167-178: node(f) *)
Definition tget (t : table) (f : nid) : option node :=
  r ← t !! row f; r !! col f.
(** NodeTable.hpp 186-188, 207-210: child(f, b) *)
Definition child (t : table) (f : nid) (b : nat) : option nid :=
  p ← tget t f; p !! b.
(** assignment through the reference versions (NodeTable.hpp 176-178, 219-222) *)
Definition tset (t : table) (f : nid) (p : node) : option table :=
  r ← t !! row f;
  _ ← r !! col f;
  Some (<[row f := <[col f := p]> r]> t).
Definition tset_child (t : table) (f : nid) (b : nat) (g : nid) : option table :=
  p ← tget t f;
  _ ← p !! b;
  tset t f (<[b := g]> p).
(** DataTable: replace a whole row (initRow / clear / resize are instances) *)
Definition set_row (t : table) (i : nat) (r : list node) : option table :=
  _ ← t !! i; Some (<[i := r]> t).

(** DataTable.hpp totalSize / NodeTable.hpp 100-102: number of non-terminal nodes *)
Definition table_size (t : table) : nat := sum_list_with length (drop 1 t).

(** A DdStructure: DdStructure.hpp 57-58 (arity is kept because the model is not templated). *)
Record dd := Dd { d_ar : nat; tab : table; rt : nid }.
(** NodeTable.hpp 108-110: the number of variables is the number of rows minus one *)
Definition numVars (d : dd) : nat := length (tab d) - 1.

(** DdStructure.hpp 677-680 (getRoot) and 685-690 (getChild): a structure used as a specification.
    A child of an invalid reference does not exist; this total version yields the 0-terminal there,
    every theorem that uses it also states or assumes [dd_wf]. *)
Definition id_level (f : nid) : Z :=
  if (0 <? row f)%nat then Z.of_nat (row f) else (- Z.of_nat (col f))%Z.
Definition dd_spec (d : dd) : spec := {|
  St := nid;
  ar := d_ar d;
  get_root := (if neqb (rt d) n1 then (-1)%Z else Z.of_nat (row (rt d)), rt d);
  get_child := fun f _ b =>
    match child (tab d) f b with Some g => (id_level g, g) | None => (0%Z, n0) end;
  equal_to := fun _ f g => neqb f g;
  hash_code := fun _ f => (N.of_nat (row f) * 2 ^ 44 + N.of_nat (col f)) * 314159257 mod 2 ^ 64
                       (* DdStructure.hpp 695-697, Node.hpp 103-105 *)
|}%N.

(** Validity of references and tables: ordered, no dangling reference. *)
Definition valid (t : table) (f : nid) : Prop :=
  if (row f =? 0)%nat then col f < 2 else is_Some (tget t f).

Record table_wf (a : nat) (t : table) : Prop := {
  wf_term : exists r, t !! 0 = Some r /\ length r = 2 /\ Forall (fun p => length p = a) r;
  wf_arity : forall i r j p, t !! i = Some r -> r !! j = Some p -> length p = a;
  wf_child : forall i r j p b g, 0 < i -> t !! i = Some r -> r !! j = Some p -> p !! b = Some g ->
             row g < i /\ valid t g
}.

Definition dd_wf (d : dd) : Prop := 0 < d_ar d /\ table_wf (d_ar d) (tab d) /\ valid (tab d) (rt d).
