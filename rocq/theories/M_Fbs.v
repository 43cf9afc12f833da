(** spec/FrontierBasedSearch.hpp.  The state is the counter (int16_t) and the array of FrontierBasedSearchMate cells.
    A pointer to a cell is its distance from mate[0].  [None] results stand for an access outside the array or a failing
    assertion.  Pointers that are only compared, not followed, may point outside the array. *)
From Verif Require Import Base Sem M_Graph M_Degree.
Local Open Scope Z_scope.

(** 66-72 *)
Definition UNCOLORED : Z := 32766.
Definition EDGE_COMPONENT : Z := 32767.
Record fcell := FCell { hoc : Z; nxt : Z }.
#[export] Instance fcell_eq_dec : EqDecision fcell.
Proof. solve_decision. Defined.
Notation cells := (list fcell).

Definition fget (ms : cells) (p : Z) : option fcell := if p <? 0 then None else ms !! Z.to_nat p.
Definition fset (ms : cells) (p : Z) (c : fcell) : option cells := _ ← fget ms p; Some (<[Z.to_nat p := c]> ms).
(** assignment to a member of type int16_t *)
Definition set_hoc (ms : cells) (p h : Z) : option cells := c ← fget ms p; fset ms p (FCell (wrap16 h) (nxt c)).
Definition set_nxt (ms : cells) (p d : Z) : option cells := c ← fget ms p; fset ms p (FCell (hoc c) (wrap16 d)).

(** isHead, isTail, isIsolated (103-113) *)
Definition isHead (c : fcell) : bool := 0 <=? hoc c.
Definition isTail (c : fcell) : bool := nxt c =? 0.
Definition isIsolated (c : fcell) : bool := isHead c && isTail c.
(** head (115-121): the pointer; next (123-129) *)
Definition fhead (ms : cells) (p : Z) : option Z := c ← fget ms p; Some (if isHead c then p else p + hoc c).
Definition fnext (ms : cells) (p : Z) : option Z := c ← fget ms p; Some (p + nxt c).
(** isColored, isUncoloredEdgeComponent (131-137) *)
Definition head_hoc (ms : cells) (p : Z) : option Z := h ← fhead ms p; c ← fget ms h; Some (hoc c).
Definition isColored (ms : cells) (p : Z) : option bool := h ← head_hoc ms p; Some (h <? UNCOLORED).
Definition isEdgeComponent (ms : cells) (p : Z) : option bool := h ← head_hoc ms p; Some (h =? EDGE_COMPONENT).
(** isColoredTail (139-141) *)
Definition isColoredTail (ms : cells) (p : Z) : option bool :=
  c ← fget ms p;
  if hoc c =? 0 then Some true else
  if hoc c <? 0 then c' ← fget ms (p + hoc c); Some (hoc c + hoc c' =? 0) else Some false.
(** &head() + head().hoc *)
Definition color_ptr (ms : cells) (p : Z) : option Z := h ← fhead ms p; c ← fget ms h; Some (h + hoc c).
(** hasSameColorAs (143-147) *)
Definition hasSameColorAs (ms : cells) (p q : Z) : option bool := a ← color_ptr ms p; b ← color_ptr ms q; Some (a =? b).
(** findColorPredecessor (149-160): the loop starts at [p] with [k] cells left; the result is the pointer found *)
Fixpoint pred_loop (ms : cells) (o : Z) (k : nat) (p : Z) : option (option Z) :=
  match k with
  | O => Some None
  | S k' => a ← color_ptr ms p; if a =? o then Some (Some p) else pred_loop ms o k' (p - 1)
  end.
Definition findColorPredecessor (ms : cells) (this o : Z) : option (option Z) :=
  t ← isColoredTail ms o;
  if negb t then None else pred_loop ms o (Z.to_nat (o - this)) (o - 1).

(** 185-188: the cells of the second list get the head p1 *)
Fixpoint relink (fuel : nat) (ms : cells) (p1 q : Z) : option cells :=
  match fuel with
  | O => None
  | S f =>
      ms ← set_hoc ms q (p1 - q);
      c ← fget ms q;
      if nxt c =? 0 then Some ms else relink f ms p1 (q + nxt c)
  end.
(** 193-208: both loops in one, every turn goes on from p to the next cell in order; the result is the array and q *)
Fixpoint interleave (fuel : nat) (ms : cells) (p q : Z) : option (cells * Z) :=
  match fuel with
  | O => None
  | S f =>
      c ← fget ms p;
      let pp := p + nxt c in
      if (p =? q) || (pp <? p) || (pp =? q) then None else
      if (p <? pp) && (pp <? q) then interleave f ms pp q else
      if negb ((p =? pp) || (q <? pp)) then None else
      ms ← set_nxt ms p (q - p);
      if p =? pp then Some (ms, q) else interleave f ms q pp
  end.
(** 211-213: the last cell of the list *)
Fixpoint last_cell (fuel : nat) (ms : cells) (q : Z) : option Z :=
  match fuel with
  | O => None
  | S f => c ← fget ms q; if nxt c =? 0 then Some q else last_cell f ms (q + nxt c)
  end.
(** 167-183: the head of the merged list gets the color pointer; the result tells if a colored list meets an uncolored one *)
Definition merge_color (ms : cells) (p1 p2 : Z) : option (bool * cells) :=
  c1 ← fget ms p1; c2 ← fget ms p2;
  if hoc c2 <? UNCOLORED then
    let painting := UNCOLORED <=? hoc c1 in
    ms ← (if painting || (p1 + hoc c1 <? p2 + hoc c2) then set_hoc ms p1 (hoc c2 + (p2 - p1)) else Some ms);
    Some (painting, ms)
  else
    let painting := hoc c1 <? UNCOLORED in
    ms ← (if hoc c1 =? UNCOLORED then set_hoc ms p1 EDGE_COMPONENT else Some ms);
    Some (painting, ms).
(** 210-222: the color pointers of the other lists of this color *)
Definition merge_paint (ms : cells) (p1 q : Z) : option cells :=
  q ← last_cell (length ms) ms q;
  c ← fget ms p1;
  let pp := p1 + hoc c in
  if pp <? q then
    ofold (fun ms k => let p := Z.of_nat k in c ← fget ms p; if p + hoc c =? pp then set_hoc ms p (q - p) else Some ms)
      (seq 0 (Z.to_nat (pp + 1))) ms
  else Some ms.
(** mergeLists (162-223), called for mate[0] *)
Definition mergeLists (ms : cells) (o1 o2 : Z) : option cells :=
  h1 ← fhead ms o1; h2 ← fhead ms o2;
  if h1 =? h2 then Some ms else
  let p1 := Z.min h1 h2 in let p2 := Z.max h1 h2 in
  '(painting, ms) ← merge_color ms p1 p2;
  ms ← relink (length ms) ms p1 p2;
  '(ms, q) ← interleave (length ms) ms p1 p2;
  if painting : bool then merge_paint ms p1 q else Some ms.

(** replaceHeadWith (225-235); the loop 231-234 *)
Fixpoint rehead (fuel : nat) (ms : cells) (h q : Z) : option cells :=
  match fuel with
  | O => None
  | S f =>
      c ← fget ms q;
      if 0 <? nxt c then let q := q + nxt c in ms ← set_hoc ms q (h - q); rehead f ms h q else Some ms
  end.
Definition replaceHeadWith (ms : cells) (this h : Z) : option cells :=
  p ← fhead ms this; c ← fget ms p;
  ms ← set_hoc ms h (if hoc c <? UNCOLORED then hoc c + (p - h) else hoc c);
  rehead (length ms) ms h h.

(** removeFromList (237-258), called for mate[0] *)
Definition removeFromList (ms : cells) (o : Z) : option cells :=
  t ← isColoredTail ms o; co ← fget ms o;
  if t : bool then
    if negb (nxt co =? 0) then None else
    r ← findColorPredecessor ms 0 o;
    match r with
    | None => Some ms
    | Some pp =>
        ofold (fun ms k => let p := Z.of_nat k in
                 c ← fget ms p;
                 ms ← (if p + hoc c =? o then set_hoc ms p (pp - p) else Some ms);
                 c ← fget ms p;
                 if p + nxt c =? o then set_nxt ms p 0 else Some ms) (seq 0 (Z.to_nat (pp + 1))) ms
    end
  else if nxt co =? 0 then
    ofold (fun ms k => let p := Z.of_nat k in c ← fget ms p; if p + nxt c =? o then set_nxt ms p 0 else Some ms)
      (seq 0 (Z.to_nat (o + 1))) ms
  else
    ofold (fun ms k => let p := Z.of_nat k in c ← fget ms p;
             if p + nxt c =? o then o' ← fget ms o; set_nxt ms p (nxt c + nxt o') else Some ms)
      (seq 0 (Z.to_nat (o + 1))) ms.

(** the members of the specification (271-278); numUEC is the constructor's argument *)
Record fbs : Type := Fbs {
  fb_graph : graph;
  fb_numUEC : Z;
  fb_noLoop : bool;
  fb_look : bool
}.
Definition fb_n (G : fbs) : nat := edgeSize (fb_graph G).
Definition fb_size (G : fbs) : nat := maxFrontierSize (fb_graph G).

(** rootOfColor (424-427): the last vertex of each color (for color 0 it is not used) *)
Definition rootOfColor (G : fbs) (k : nat) : nat :=
  foldl (fun r v => if (colorNumber (fb_graph G) v =? k)%nat then v else r) 0%nat (seq 1 (vertexSize (fb_graph G))).
(** initialMate (428-432): 1 + m + mateSize elements; the others are Mate(0) *)
Definition fb_init_at (G : fbs) (v : nat) : fcell :=
  if (1 <=? v)%nat && (v <=? vertexSize (fb_graph G))%nat then
    let k := colorNumber (fb_graph G) v in
    FCell (wrap16 (if (0 <? k)%nat then Z.of_nat (rootOfColor G k) - Z.of_nat v else UNCOLORED)) 0
  else FCell 0 0.
Definition fb_init (G : fbs) : cells := map (fb_init_at G) (seq 0 (1 + vertexSize (fb_graph G) + fb_size G)).

(** mate[v - e.v0] as a pointer *)
Definition fptr (e : edge_info) (v : nat) : Z := Z.of_nat v - Z.of_nat (e_v0 e).

(** takable (280-324); the result is the new counter if the edge can be taken *)
Definition fb_takable (G : fbs) (uec : Z) (ms : cells) (e : edge_info) : option (option Z) :=
  let w1 := fptr e (e_v1 e) in let w2 := fptr e (e_v2 e) in
  c1 ← fget ms w1; c2 ← fget ms w2;
  h1 ← fhead ms w1; h2 ← fhead ms w2;
  if fb_noLoop G && (h1 =? h2) then Some None else
  k1 ← isColored ms w1; k2 ← isColored ms w2;
  same ← hasSameColorAs ms w1 w2;
  if k1 && k2 && negb same then Some None else
  r ← (if e_v1final e && e_v2final e then
         if isIsolated c1 && isIsolated c2 then
           if k2 : bool then
             t ← isColoredTail ms w2;
             if negb t then Some None else
             f ← findColorPredecessor ms 1 w2;
             match f with Some _ => Some None | None => Some (Some uec) end
           else if k1 : bool then
             t ← isColoredTail ms w1;
             if negb t then Some None else Some (Some uec)
           else if uec =? 0 then Some None else Some (Some (if 0 <? uec then uec - 1 else uec))
         else if isHead c1 && (w2 =? w1 + nxt c1) && isTail c2 then
           if k1 : bool then
             t ← isColoredTail ms w2;
             if negb t then Some None else
             f ← findColorPredecessor ms w2 1;
             match f with Some _ => Some None | None => Some (Some uec) end
           else
             u ← isEdgeComponent ms w1;
             if negb u then None else
             if uec =? 0 then Some None else Some (Some (if 0 <? uec then uec - 1 else uec))
         else Some (Some uec)
       else Some (Some uec));
  match r with
  | None => Some None
  | Some uec => if e_finalEdge e && (0 <? uec) then Some None else Some (Some uec)
  end.

(** doTake (326-334) *)
Definition fb_doTake (G : fbs) (uec : Z) (ms : cells) (e : edge_info) : option (option (Z * cells)) :=
  t ← fb_takable G uec ms e;
  match t with
  | None => Some None
  | Some uec => ms ← mergeLists ms (fptr e (e_v1 e)) (fptr e (e_v2 e)); Some (Some (uec, ms))
  end.

(** doNotTake (336-381): one vertex leaving alone (341-350 and 352-362) *)
Definition leave_alone (ms : cells) (uec w : Z) (second : bool) : option (option Z) :=
  k ← isColored ms w;
  if k : bool then
    t ← isColoredTail ms w;
    if negb t then Some None else
    if second then f ← findColorPredecessor ms 1 w; match f with Some _ => Some None | None => Some (Some uec) end
    else Some (Some uec)
  else
    u ← isEdgeComponent ms w;
    if (0 <=? uec) && u then if uec =? 0 then Some None else Some (Some (uec - 1)) else Some (Some uec).
Definition fb_doNotTake (G : fbs) (uec : Z) (ms : cells) (e : edge_info) : option (option Z) :=
  let w1 := fptr e (e_v1 e) in let w2 := fptr e (e_v2 e) in
  c1 ← fget ms w1; c2 ← fget ms w2;
  r1 ← (if e_v1final e && isIsolated c1 then leave_alone ms uec w1 false else Some (Some uec));
  match r1 with
  | None => Some None
  | Some uec =>
  r2 ← (if e_v2final e && isIsolated c2 then leave_alone ms uec w2 true else Some (Some uec));
  match r2 with
  | None => Some None
  | Some uec =>
  r3 ← (if e_v1final e && e_v2final e && isHead c1 && (w2 =? w1 + nxt c1) && isTail c2 then
          k1 ← isColored ms w1;
          if k1 : bool then
            t ← isColoredTail ms w2;
            if negb t then Some None else
            f ← findColorPredecessor ms w2 1;
            match f with Some _ => Some None | None => Some (Some uec) end
          else
            u ← isEdgeComponent ms w1;
            if negb u then None else
            if uec =? 0 then Some None else Some (Some (if 0 <? uec then uec - 1 else uec))
        else Some (Some uec));
  match r3 with
  | None => Some None
  | Some uec => if e_finalEdge e && (0 <? uec) then Some None else Some (Some uec)
  end end end.

(** update (383-414).  The memmove at 409 and the loop at 410 stay inside the array only if p1 is mate[0]. *)
Definition fb_update (G : fbs) (ms : cells) (e ee : edge_info) : option cells :=
  let d := Z.of_nat (e_v0 ee) - Z.of_nat (e_v0 e) in
  if d <? 0 then None else
  let p1 := fptr e (e_v1 e) in let p2 := fptr e (e_v2 e) in
  let pd := p1 + d in
  ms ← ofold (fun ms k => let q := p1 + Z.of_nat k in
                qq ← fnext ms q; if pd <=? qq then replaceHeadWith ms q qq else Some ms) (seq 0 (Z.to_nat d)) ms;
  ms ← (if e_v2final e then ms ← removeFromList ms p2; fset ms p2 (FCell 0 0) else Some ms);
  ms ← (if e_v1final e then ms ← removeFromList ms p1; fset ms p1 (FCell 0 0) else Some ms);
  if 0 <? d then
    if negb (p1 =? 0) || (Z.of_nat (fb_size G) <? d) then None else
    let k := Z.to_nat d in
    new ← mapM (fun i => fb_init G !! (e_v0 ee + i)%nat) (seq (fb_size G - k) k);
    Some (drop k ms ++ new)
  else Some ms.

(** the lookahead loop (464-476) from edge i on; fuel = number of edges left *)
Fixpoint fb_skip (G : fbs) (fuel i : nat) (uec : Z) (ms : cells) : option (Z * (Z * cells)) :=
  match fuel with
  | O => None
  | S f =>
      e ← g_edgeInfo (fb_graph G) !! i;
      t ← fb_takable G uec ms e;
      match t with
      | Some _ => Some (Z.of_nat (fb_n G) - Z.of_nat i, (uec, ms))
      | None =>
          r ← fb_doNotTake G uec ms e;
          match r with
          | None => Some (0, (uec, ms))
          | Some uec =>
              if (S i =? fb_n G)%nat then Some (-1, (uec, ms)) else
              e' ← g_edgeInfo (fb_graph G) !! S i;
              ms ← fb_update G ms e e';
              fb_skip G f (S i) uec ms
          end
      end
  end.

(** getRoot (435-445); edgeInfo(0) must exist *)
Definition fb_root (G : fbs) : option (Z * (Z * cells)) :=
  e ← g_edgeInfo (fb_graph G) !! 0%nat;
  ms ← mapM (fun k => fb_init G !! (e_v0 e + k)%nat) (seq 0 (fb_size G));
  Some (Z.of_nat (fb_n G), (wrap16 (fb_numUEC G), ms)).

(** getChild (447-480) *)
Definition fb_child (G : fbs) (s : Z * cells) (level : nat) (take : bool) : option (Z * (Z * cells)) :=
  let '(uec, ms) := s in
  if (level <? 1)%nat || (fb_n G <? level)%nat then None else
  let i := (fb_n G - level)%nat in
  e ← g_edgeInfo (fb_graph G) !! i;
  r ← (if take then fb_doTake G uec ms e
       else r ← fb_doNotTake G uec ms e; Some (match r with None => None | Some uec => Some (uec, ms) end));
  match r with
  | None => Some (0, (uec, ms))
  | Some (uec, ms) =>
      if (S i =? fb_n G)%nat then Some (-1, (uec, ms)) else
      e' ← g_edgeInfo (fb_graph G) !! S i;
      ms ← fb_update G ms e e';
      if fb_look G then fb_skip G (fb_n G - S i) (S i) uec ms
      else Some (Z.of_nat (fb_n G) - Z.of_nat (S i), (uec, ms))
  end.

(** The specification object (HybridDdSpec, DdSpec.hpp 526-660; hashCode 482-484).  Equality and hash work on the words
    of the array, here on the cells.  An access out of range (None) is mapped to the 0-terminal; it is proved not to occur. *)
Definition fb_spec (G : fbs) : spec := {|
  St := Z * cells;
  ar := 2;
  get_root := default (0, (0, [])) (fb_root G);
  get_child := fun s level b => default (0, s) (fb_child G s (Z.to_nat level) (negb (b =? 0)%nat));
  equal_to := fun _ s s' => bool_decide (s = s');
  hash_code := fun _ s => foldl (fun h c => (h + Z.to_N ((hoc c + 65536 * nxt c) mod 2 ^ 64)) * 314159257 mod 2 ^ 64)%N
                 (Z.to_N (fst s mod 2 ^ 64) * 271828171 mod 2 ^ 64)%N (snd s)
|}.
