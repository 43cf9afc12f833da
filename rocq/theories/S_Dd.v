(** Specification vocabulary for decision diagrams as data structures. *)
From Verif Require Import Base Sem M_Table.

(** The level codes met when a diagram is walked from its root along the branch values [bs]. *)
Definition walk (d : dd) (bs : list nat) : list Z :=
  run (dd_spec d) (fst (get_root (dd_spec d))) (snd (get_root (dd_spec d))) bs.

(** Two diagrams unfold to the same decision tree. *)
Definition same_unfolding (d o : dd) : Prop :=
  forall bs, Forall (fun b => b < d_ar d) bs -> walk d bs = walk o bs.

(** No two nodes of one level have the same branches (attributes are ignored, as Node::operator== does). *)
Definition no_duplicates (d : dd) : Prop :=
  forall i c c' p p', 0 < i -> tget (tab d) (mk i c) = Some p -> tget (tab d) (mk i c') = Some p' ->
  map code p = map code p' -> c = c'.

(** No node has all its branches equal (redundant for BDDs). *)
Definition no_bdd_redundant (d : dd) : Prop :=
  forall i c p, 0 < i -> tget (tab d) (mk i c) = Some p -> exists b b' g g', p !! b = Some g /\ p !! b' = Some g' /\ code g <> code g'.

(** No node has all its branches with non-zero label at the 0-terminal (redundant for ZDDs). *)
Definition no_zdd_redundant (d : dd) : Prop :=
  forall i c p, 0 < i -> tget (tab d) (mk i c) = Some p -> exists b g, 0 < b /\ p !! b = Some g /\ code g <> (0, 0).

(** A renaming of columns, level by level. *)
Definition rename (phi : nat -> nat -> nat) (f : nat * nat) : nat * nat :=
  match f with (0, c) => (0, c) | (i, c) => (i, phi i c) end.

(** The two diagrams are the same up to a renaming of the columns of each level: same number of levels,
    same number of nodes at each level, corresponding nodes have corresponding branches, and the roots correspond. *)
Definition isomorphic (d o : dd) : Prop :=
  d_ar d = d_ar o /\ length (tab d) = length (tab o) /\
  exists phi,
    (forall i x, 0 < i -> tab d !! i = Some x ->
       exists y, tab o !! i = Some y /\ length x = length y /\
         (forall c c', c < length x -> c' < length x -> phi i c = phi i c' -> c = c') /\
         forall c p, x !! c = Some p -> exists q, y !! phi i c = Some q /\ map (rename phi) (map code p) = map code q) /\
    rename phi (code (rt d)) = code (rt o).

(** A reference held by a diagram: the root or a branch of a node. *)
Definition held (d : dd) (f : nid) : Prop :=
  f = rt d \/ exists i c b, 0 < i /\ child (tab d) (mk i c) b = Some f.

(** References to the 0-terminal are not marked as containing the empty set. *)
Definition zero_unmarked (d : dd) : Prop :=
  forall f, held d f -> code f = (0, 0) -> attr f = false.

(** [h] is reached from [f] along 0-branches, going on while the level is above [l]. *)
Inductive zero_desc (t : table) (l : nat) : nid -> nid -> Prop :=
| zd_stop f : row f <= l -> zero_desc t l f f
| zd_step f g h : l < row f -> child t f 0 = Some g -> zero_desc t l g h -> zero_desc t l f h.
