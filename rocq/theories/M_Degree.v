(** spec/DegreeConstraint.hpp.  The state is the array of Mate (int16_t) cells; ++ on a cell wraps to 16 bits.
    A constraint pointer is [option int_subset] (null = None).  [None] results stand for an access out of range. *)
From stdpp Require Import strings.
From Verif Require Import Base Sem M_Size M_Graph.
Local Open Scope Z_scope.

(** conversion of int to int16_t *)
Definition wrap16 (z : Z) : Z := (z + 32768) mod 65536 - 32768.

(** the members (DegreeConstraint.hpp 42-46) *)
Record degc : Type := DegC {
  dc_graph : graph;
  dc_cons : list (option int_subset);
  dc_lookahead : bool
}.
Definition dc_n (G : degc) : nat := edgeSize (dc_graph G).
Definition dc_mateSize (G : degc) : nat := maxFrontierSize (dc_graph G).

(** constructor (70-80) *)
Definition deg_new (g : graph) (c : option int_subset) (lookahead : bool) : degc :=
  DegC g (None :: replicate (vertexSize g) c) lookahead.
(** setConstraint by number (82-86); None = exception *)
Definition deg_set (G : degc) (v : nat) (c : option int_subset) : option degc :=
  if (v <? 1)%nat || (vertexSize (dc_graph G) <? v)%nat then None
  else Some (DegC (dc_graph G) (<[v := c]> (dc_cons G)) (dc_lookahead G)).

(** shiftMate (48-56); d < 0 or d > mateSize would be out of range *)
Definition deg_shift (size : nat) (mate : list Z) (d : Z) : option (list Z) :=
  if (d <? 0) || (Z.of_nat size <? d) then None
  else Some (drop (Z.to_nat d) mate ++ replicate (Z.to_nat d) 0).

(** takable (58-62), leavable (64-67) *)
Definition deg_takable (c : option int_subset) (degree : Z) (final : bool) : bool :=
  match c with
  | None => true
  | Some c => if upperBound c <=? degree then false else negb final || contains c (degree + 1)
  end.
Definition deg_leavable (c : option int_subset) (degree : Z) (final : bool) : bool :=
  match c with
  | None => true
  | Some c => negb final || contains c degree
  end.

(** getRoot (92-97) *)
Definition deg_root (G : degc) : Z * list Z := (Z.of_nat (dc_n G), replicate (dc_mateSize G) 0).

(** [mate[v - e.v0]] as an index *)
Definition deg_cell (e : edge_info) (v : nat) : option nat :=
  if (e_v0 e <=? v)%nat then Some (v - e_v0 e)%nat else None.
(** [if (c) ++w;] (113-114) *)
Definition deg_incr (c : option int_subset) (k : nat) (mate : list Z) : option (list Z) :=
  match c with
  | None => Some mate
  | Some _ => w ← mate !! k; Some (<[k := wrap16 (w + 1)]> mate)
  end.
(** [if (e.v1final) w1 = 0; if (e.v2final) w2 = 0;] (121-122, 139-140) *)
Definition deg_clear (e : edge_info) (k1 k2 : nat) (mate : list Z) : list Z :=
  let m1 := if e_v1final e then <[k1 := 0]> mate else mate in
  if e_v2final e then <[k2 := 0]> m1 else m1.

(** the lookahead loop (127-144) from edge i on; fuel = number of edges left *)
Fixpoint deg_look (G : degc) (fuel i : nat) (mate : list Z) : option (Z * list Z) :=
  match fuel with
  | O => None
  | S f =>
      e ← g_edgeInfo (dc_graph G) !! i;
      k1 ← deg_cell e (e_v1 e); k2 ← deg_cell e (e_v2 e);
      w1 ← mate !! k1; w2 ← mate !! k2;
      c1 ← dc_cons G !! e_v1 e; c2 ← dc_cons G !! e_v2 e;
      if deg_takable c1 w1 (e_v1final e) && deg_takable c2 w2 (e_v2final e)
      then Some (Z.of_nat (dc_n G) - Z.of_nat i, mate)
      else if negb (deg_leavable c1 w1 (e_v1final e)) then Some (0, mate)
      else if negb (deg_leavable c2 w2 (e_v2final e)) then Some (0, mate)
      else
        let mate1 := deg_clear e k1 k2 mate in
        if (S i =? dc_n G)%nat then Some (-1, mate1) else
        e' ← g_edgeInfo (dc_graph G) !! S i;
        mate2 ← deg_shift (dc_mateSize G) mate1 (Z.of_nat (e_v0 e') - Z.of_nat (e_v0 e));
        deg_look G f (S i) mate2
  end.

(** getChild (99-147) *)
Definition deg_child (G : degc) (mate : list Z) (level : nat) (take : bool) : option (Z * list Z) :=
  if (level <? 1)%nat || (dc_n G <? level)%nat then None else
  let i := (dc_n G - level)%nat in
  e ← g_edgeInfo (dc_graph G) !! i;
  k1 ← deg_cell e (e_v1 e); k2 ← deg_cell e (e_v2 e);
  w1 ← mate !! k1; w2 ← mate !! k2;
  c1 ← dc_cons G !! e_v1 e; c2 ← dc_cons G !! e_v2 e;
  let ok := if take then deg_takable c1 w1 (e_v1final e) && deg_takable c2 w2 (e_v2final e)
            else deg_leavable c1 w1 (e_v1final e) && deg_leavable c2 w2 (e_v2final e) in
  if negb ok then Some (0, mate) else
  mate1 ← (if take then m ← deg_incr c1 k1 mate; deg_incr c2 k2 m else Some mate);
  let mate2 := deg_clear e k1 k2 mate1 in
  if (S i =? dc_n G)%nat then Some (-1, mate2) else
  e' ← g_edgeInfo (dc_graph G) !! S i;
  mate3 ← deg_shift (dc_mateSize G) mate2 (Z.of_nat (e_v0 e') - Z.of_nat (e_v0 e));
  if dc_lookahead G then deg_look G (dc_n G - S i) (S i) mate3
  else Some (Z.of_nat (dc_n G) - Z.of_nat (S i), mate3).

(** The specification object; equalTo/hashCode of PodArrayDdSpec (DdSpec.hpp 449-476) work on the words of the
    array, here on the elements.  An access out of range (None) is mapped to the 0-terminal; it is proved not to occur. *)
Definition deg_spec (G : degc) : spec := {|
  St := list Z;
  ar := 2;
  get_root := deg_root G;
  get_child := fun s level b => default (0, s) (deg_child G s (Z.to_nat level) (negb (b =? 0)%nat));
  equal_to := fun _ s s' => bool_decide (s = s');
  hash_code := fun _ s => foldl (fun h x => (h + Z.to_N (x mod 2 ^ 64)) * 314159257 mod 2 ^ 64)%N 0%N s
|}.

(** setConstraint by name (88-90): graph.getVertex throws for an unknown name *)
Definition deg_set_name (G : degc) (s : String.string) (c : option int_subset) : option degc :=
  v ← getVertex (dc_graph G) s; deg_set G v c.
