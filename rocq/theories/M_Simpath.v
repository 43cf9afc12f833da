(** spec/PathZdd.hpp: SimpathBasedImpl and its instances PathZdd, HamiltonPathZdd, CycleZdd, HamiltonCycleZdd.
    The state is the array of Mate (int16_t) cells.  [None] results stand for an access out of range. *)
From Verif Require Import Base Sem M_Graph M_Degree.
Local Open Scope Z_scope.

(** template parameters [type] (true = Cycle) and [hamilton], members graph and lookahead (38-50) *)
Record simpath : Type := Simpath {
  sm_graph : graph;
  sm_cycle : bool;
  sm_ham : bool;
  sm_look : bool
}.
Definition sm_n (G : simpath) : nat := edgeSize (sm_graph G).
Definition sm_size (G : simpath) : nat := maxFrontierSize (sm_graph G).

(** initialMate (132-146): m + mateArraySize_ elements, element 0 keeps its default 0 *)
Definition sm_init_at (G : simpath) (v : nat) : Z :=
  if (1 <=? v)%nat && (v <=? vertexSize (sm_graph G))%nat then
    let c := colorNumber (sm_graph G) v in
    wrap16 (if (0 <? c)%nat then - Z.of_nat c else Z.of_nat v)
  else 0.
Definition sm_init (G : simpath) : list Z :=
  map (sm_init_at G) (seq 0 (vertexSize (sm_graph G) + sm_size G)).

(** shiftMate (56-64); d > mateArraySize_ would be out of range *)
Definition sm_shift (G : simpath) (mate : list Z) (v0 vv0 : nat) : option (list Z) :=
  let d := (vv0 - v0)%nat in
  if (sm_size G <? d)%nat then None else
  new ← mapM (fun k => sm_init G !! (vv0 + k)%nat) (seq (sm_size G - d) d);
  Some (drop d mate ++ new).

Inductive takable_result := NO | YES | HIT.

(** the index of vertex v in the array *)
Definition sm_cell (e : edge_info) (v : nat) : option nat :=
  if (e_v0 e <=? v)%nat then Some (v - e_v0 e)%nat else None.

(** the loop 85-92: YES as soon as a cell is negative, otherwise the final value of [clean] *)
Fixpoint path_scan (ham : bool) (e : edge_info) (ks : list nat) (mate : list Z) (clean : bool) : option takable_result :=
  match ks with
  | [] => Some (if clean then HIT else NO)
  | k :: ks' =>
      if (e_v0 e + k =? e_v1 e)%nat || (e_v0 e + k =? e_v2 e)%nat then path_scan ham e ks' mate clean else
      w ← mate !! k;
      if w <? 0 then Some YES
      else path_scan ham e ks' mate
             (if negb (w =? 0) && (ham || negb (w =? Z.of_nat (e_v0 e + k))) then false else clean)
  end.
(** the loop 99-105; the caller starts it at k = 1 *)
Fixpoint cycle_scan (ham : bool) (e : edge_info) (ks : list nat) (mate : list Z) : option takable_result :=
  match ks with
  | [] => Some HIT
  | k :: ks' =>
      if (e_v0 e + k =? e_v1 e)%nat || (e_v0 e + k =? e_v2 e)%nat then cycle_scan ham e ks' mate else
      w ← mate !! k;
      if negb (w =? 0) && (ham || negb (w =? Z.of_nat (e_v0 e + k))) then Some NO
      else cycle_scan ham e ks' mate
  end.

(** takable (66-111) *)
Definition sm_takable (G : simpath) (mate : list Z) (e : edge_info) : option takable_result :=
  k1 ← sm_cell e (e_v1 e); k2 ← sm_cell e (e_v2 e);
  w1 ← mate !! k1; w2 ← mate !! k2;
  if w1 =? 0 then Some NO else
  if e_v1final e && (w1 =? Z.of_nat (e_v1 e)) then Some NO else
  if w2 =? 0 then Some NO else
  if e_v2final e && (w2 =? Z.of_nat (e_v2 e)) then Some NO else
  if sm_cycle G then
    if w1 =? Z.of_nat (e_v2 e) then cycle_scan (sm_ham G) e (seq 1 (sm_size G - 1)) mate
    else Some YES
  else
    if w1 =? Z.of_nat (e_v2 e) then Some NO
    else if (w1 <? 0) && (w2 <? 0) then
      if negb (w1 =? w2) then Some NO
      else if negb (e_allColorsSeen e) then Some YES
      else path_scan (sm_ham G) e (seq 0 (sm_size G)) mate true
    else Some YES.

(** leavable (113-129) *)
Definition sm_leavable (G : simpath) (mate : list Z) (e : edge_info) : option bool :=
  k1 ← sm_cell e (e_v1 e); k2 ← sm_cell e (e_v2 e);
  w1 ← mate !! k1; w2 ← mate !! k2;
  let x1 := Z.of_nat (e_v1 e) in let x2 := Z.of_nat (e_v2 e) in
  Some (if sm_ham G then
    negb (e_v1final e && negb (w1 =? 0)) && negb (e_v2final e && negb (w2 =? 0)) &&
    negb (e_v1final2 e && (w1 =? x1)) && negb (e_v2final2 e && (w2 =? x2))
  else
    negb (e_v1final e && negb (w1 =? 0) && negb (w1 =? x1)) &&
    negb (e_v2final e && negb (w2 =? 0) && negb (w2 =? x2))).

(** mate[x - e.v0] = w for a mate x > 0 (180-181) *)
Definition sm_link (e : edge_info) (x w : Z) (mate : list Z) : option (list Z) :=
  if 0 <? x then
    let k := x - Z.of_nat (e_v0 e) in
    if k <? 0 then None else _ ← mate !! Z.to_nat k; Some (<[Z.to_nat k := w]> mate)
  else Some mate.

(** 178-183: the update when the edge is taken *)
Definition sm_take (mate : list Z) (e : edge_info) : option (list Z) :=
  k1 ← sm_cell e (e_v1 e); k2 ← sm_cell e (e_v2 e);
  w1 ← mate !! k1; w2 ← mate !! k2;
  mate ← sm_link e w1 w2 mate;
  mate ← sm_link e w2 w1 mate;
  let mate := if e_v1final e || negb (w1 =? Z.of_nat (e_v1 e)) then <[k1 := 0]> mate else mate in
  Some (if e_v2final e || negb (w2 =? Z.of_nat (e_v2 e)) then <[k2 := 0]> mate else mate).

(** 188-191 and 205-208: the update when the edge is not taken; w1 and w2 are references, so w2 is read
    after w1 has been written (they differ unless the edge is a loop) *)
Definition sm_leave (mate : list Z) (e : edge_info) : option (list Z) :=
  k1 ← sm_cell e (e_v1 e); k2 ← sm_cell e (e_v2 e);
  w1 ← mate !! k1;
  let mate := if e_v1final e || (e_v1final2 e && (w1 =? Z.of_nat (e_v1 e))) then <[k1 := 0]> mate else mate in
  w2 ← mate !! k2;
  Some (if e_v2final e || (e_v2final2 e && (w2 =? Z.of_nat (e_v2 e))) then <[k2 := 0]> mate else mate).

(** the lookahead loop (197-211) from edge i on; fuel = number of edges left *)
Fixpoint sm_skip (G : simpath) (fuel i : nat) (mate : list Z) : option (Z * list Z) :=
  match fuel with
  | O => None
  | S f =>
      e ← g_edgeInfo (sm_graph G) !! i;
      t ← sm_takable G mate e;
      match t with
      | NO =>
          l ← sm_leavable G mate e;
          if negb l then Some (0, mate) else
          if (S i =? sm_n G)%nat then Some (0, mate) else
          mate1 ← sm_leave mate e;
          e' ← g_edgeInfo (sm_graph G) !! S i;
          mate2 ← sm_shift G mate1 (e_v0 e) (e_v0 e');
          sm_skip G f (S i) mate2
      | _ => Some (Z.of_nat (sm_n G) - Z.of_nat i, mate)
      end
  end.

(** getRoot (152-160); edgeInfo(0) must exist *)
Definition sm_root (G : simpath) : option (Z * list Z) :=
  e ← g_edgeInfo (sm_graph G) !! 0%nat;
  mate ← mapM (fun k => sm_init G !! (e_v0 e + k)%nat) (seq 0 (sm_size G));
  Some (Z.of_nat (sm_n G), mate).

(** getChild (162-215) *)
Definition sm_child (G : simpath) (mate : list Z) (level : nat) (take : bool) : option (Z * list Z) :=
  if (level <? 1)%nat || (sm_n G <? level)%nat then None else
  let i := (sm_n G - level)%nat in
  e ← g_edgeInfo (sm_graph G) !! i;
  let go (mate1 : list Z) :=
    if (S i =? sm_n G)%nat then Some (0, mate1) else
    e' ← g_edgeInfo (sm_graph G) !! S i;
    mate2 ← sm_shift G mate1 (e_v0 e) (e_v0 e');
    if sm_look G then sm_skip G (sm_n G - S i) (S i) mate2
    else Some (Z.of_nat (sm_n G) - Z.of_nat (S i), mate2) in
  if take then
    t ← sm_takable G mate e;
    match t with
    | NO => Some (0, mate)
    | HIT => Some (-1, mate)
    | YES => mate1 ← sm_take mate e; go mate1
    end
  else
    l ← sm_leavable G mate e;
    if negb l then Some (0, mate) else mate1 ← sm_leave mate e; go mate1.

(** The specification object; equalTo/hashCode of PodArrayDdSpec (DdSpec.hpp 449-476) work on the words of the
    array, here on the elements.  An access out of range (None) is mapped to the 0-terminal; it is proved not to occur. *)
Definition sm_spec (G : simpath) : spec := {|
  St := list Z;
  ar := 2;
  get_root := default (0, []) (sm_root G);
  get_child := fun s level b => default (0, s) (sm_child G s (Z.to_nat level) (negb (b =? 0)%nat));
  equal_to := fun _ s s' => bool_decide (s = s');
  hash_code := fun _ s => foldl (fun h x => (h + Z.to_N (x mod 2 ^ 64)) * 314159257 mod 2 ^ 64)%N 0%N s
|}.

(** PathZdd.hpp 218-240 *)
Definition PathZdd (g : graph) (lookahead : bool) : simpath := Simpath g false false lookahead.
Definition HamiltonPathZdd (g : graph) (lookahead : bool) : simpath := Simpath g false true lookahead.
Definition CycleZdd (g : graph) (lookahead : bool) : simpath := Simpath g true false lookahead.
Definition HamiltonCycleZdd (g : graph) (lookahead : bool) : simpath := Simpath g true true lookahead.
