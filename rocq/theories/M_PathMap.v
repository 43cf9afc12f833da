(** PathZddByStdMap (include/tdzdd/spec/PathZddByStdMap.hpp): edge sets that close up to one cycle together with the
    virtual edges of the graph.  The state is a std::map from vertices to mates. *)
From stdpp Require Import strings gmap.
From Verif Require Import Base Sem M_Graph.
Local Open Scope Z_scope.

(** State (35-36): std::map<int16_t,int16_t>.  Vertex numbers are not reduced modulo 2^16: the theorems assume at
    most 32767 vertices. *)
Notation matemap := (gmap nat nat).

(** getRoot (46-52) *)
Definition pm_init (g : graph) : matemap :=
  foldl (fun m v => let w := virtualMate g v in if (1 <=? w)%nat then <[v := w]> m else m) ∅ (seq 1 (vertexSize g)).
Definition pm_root (g : graph) : Z * matemap := (Z.of_nat (edgeSize g), pm_init g).

(** the loop of lines 72-75: some entry other than those of v1 and v2 has a positive mate *)
Definition pm_open (v1 v2 : nat) (m : matemap) : bool :=
  existsb (fun '(x, w) => negb (x =? v1)%nat && negb (x =? v2)%nat && (0 <? w)%nat) (map_to_list m).

(** lines 83-86 and 88-91: a vertex that leaves must not be the end of a path; None stands for "return 0" *)
Definition pm_leave (final u : bool) (v : nat) (m : matemap) : option matemap :=
  if final && negb u then if (default 0%nat (m !! v) =? 0)%nat then Some (delete v m) else None else Some m.

(** getChild (54-94); None: edge number out of range, or the assertion of line 71 fails.  The state left behind by a
    "return 0" or "return -1" is not used by any caller. *)
Definition pm_child (g : graph) (m : matemap) (level : nat) (take : bool) : option (Z * matemap) :=
  if (level <? 1)%nat || (edgeSize g <? level)%nat then None else
  e ← g_edgeInfo g !! (edgeSize g - level)%nat;
  let v1 := e_v1 e in let v2 := e_v2 e in
  let u1 := bool_decide (m !! v1 = None) in let u2 := bool_decide (m !! v2 = None) in
  let w1 := default v1 (m !! v1) in let w2 := default v2 (m !! v2) in
  let finish (m : matemap) :=
    match pm_leave (e_v1final e) u1 v1 m with
    | None => Some (0, m)
    | Some m1 =>
        match pm_leave (e_v2final e) u2 v2 m1 with
        | None => Some (0, m1)
        | Some m2 => Some (Z.of_nat level - 1, m2)
        end
    end in
  if take then
    if (w1 =? 0)%nat || (w2 =? 0)%nat then Some (0, m) else
    if e_v1final e && u1 then Some (0, m) else
    if e_v2final e && u2 then Some (0, m) else
    if (w1 =? v2)%nat then
      if negb (w2 =? v1)%nat then None else Some (if pm_open v1 v2 m then 0 else -1, m)
    else finish (<[w2 := w1]> (<[w1 := w2]> (<[v1 := 0%nat]> (<[v2 := 0%nat]> m))))
  else finish m.

(** hashCode (96-105), with size_t of 64 bits; std::map is traversed in increasing order of keys, here the order of
    the list is a function of the map as well *)
Definition pm_hash (m : matemap) : N :=
  foldl (fun h '(x, w) => ((((h + N.of_nat x) * 314159257) + N.of_nat w) * 271828171) mod 2 ^ 64)%N 0%N (map_to_list m).

(** The specification object: DdSpec (DdSpec.hpp) compares states with operator== of std::map *)
Definition pm_spec (g : graph) : spec := {|
  St := matemap;
  ar := 2;
  get_root := pm_root g;
  get_child := fun s level b => default (0, s) (pm_child g s (Z.to_nat level) (negb (b =? 0)%nat));
  equal_to := fun _ s s' => bool_decide (s = s');
  hash_code := fun _ s => pm_hash s
|}.
