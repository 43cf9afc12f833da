(** spec/GraphillionZdd.hpp: reading a ZDD in the text format of Graphillion and using it as a specification. *)
From Coq Require Import Ascii String.
From Verif Require Import Base Sem M_Text.
Local Open Scope Z_scope.

(** ** The part of std::istream that is used: the characters not read yet, eofbit and failbit.  A value None of a character
    is EOF. *)
Record istream := IS { i_rest : text; i_eof : bool; i_fail : bool }.
Definition i_good (s : istream) : bool := negb (i_eof s) && negb (i_fail s).
(** get *)
Definition i_get (s : istream) : option ascii * istream :=
  if negb (i_good s) then (None, IS (i_rest s) (i_eof s) true) else
  match i_rest s with [] => (None, IS [] true true) | c :: r => (Some c, IS r false false) end.
(** unget, directly after a get that returned [c]: clears eofbit, fails if failbit is set *)
Definition i_unget (c : option ascii) (s : istream) : istream :=
  match c with Some c => if i_fail s then IS (i_rest s) false true else IS (c :: i_rest s) false false | None => IS (i_rest s) false true end.

(** isspace, isdigit in the "C" locale; false for EOF *)
Definition isspace (c : option ascii) : bool :=
  match c with Some c => let k := nat_of_ascii c in ((9 <=? k)%nat && (k <=? 13)%nat) || (k =? 32)%nat | None => false end.
Definition isdigit (c : option ascii) : bool :=
  match c with Some c => let k := nat_of_ascii c in (48 <=? k)%nat && (k <=? 57)%nat | None => false end.

(** the digits at the start of a text: their value and the rest *)
Fixpoint digits (v : Z) (l : text) : Z * text :=
  match l with
  | c :: r => if isdigit (Some c) then digits (10 * v + (Z.of_nat (nat_of_ascii c) - 48)) r else (v, l)
  | [] => (v, [])
  end.
(** operator>>: skips white space, then takes the longest number; no digit or a value outside [lo, hi] sets failbit (the
    value is then 0 or the nearest bound).  [sign]: a sign is accepted (the code calls the unsigned version only in front
    of a digit). *)
Fixpoint skip_ws (l : text) : text := match l with c :: r => if isspace (Some c) then skip_ws r else l | [] => [] end.
Definition i_number (sign : bool) (lo hi : Z) (s : istream) : Z * istream :=
  if negb (i_good s) then (0, IS (i_rest s) (i_eof s) true) else
  match skip_ws (i_rest s) with
  | [] => (0, IS [] true true)
  | c :: r =>
      let '(neg, l) := if sign && Ascii.eqb c "-" then (true, r) else if sign && Ascii.eqb c "+" then (false, r) else (false, c :: r) in
      let '(v, r) := digits 0 l in
      let v := if neg : bool then - v else v in
      let eof := match r with [] => true | _ => false end in
      if (List.length l =? List.length r)%nat then (0, IS r eof true)
      else if v <? lo then (lo, IS r eof true) else if hi <? v then (hi, IS r eof true) else (v, IS r eof false)
  end.

(** struct Node (40-43) and the members (45-48) *)
Record gnode := GNode { gn_index : Z; gn_child0 : Z; gn_child1 : Z }.
Record gzdd := GZdd { gz_table : list gnode; gz_root : Z; gz_min : Z; gz_max : Z }.
(** the constructor (51-53) *)
Definition gz_new : gzdd := GZdd [] 0 2147483647 (-2147483648).

(** addNode (73-84); at() throws outside the table (None).
    resize fills with zeros; running out of memory is not modelled. *)
Definition addNode (z : gzdd) (id : Z) (node : gnode) : option gzdd :=
  let '(mn, root) := if gn_index node <? gz_min z then (gn_index node, id) else (gz_min z, gz_root z) in
  let mx := if gz_max z <? gn_index node then gn_index node else gz_max z in
  let size := Z.of_nat (List.length (gz_table z)) in
  let n := if size <=? id then id + 1 else size in
  let n := if n <=? gn_child0 node then gn_child0 node + 1 else n in
  let n := if n <=? gn_child1 node then gn_child1 node + 1 else n in
  let t := if size <? n then resize (Z.to_nat (n * 2 mod 2 ^ 64)) (GNode 0 0 0) (gz_table z) else gz_table z in
  if id <? Z.of_nat (List.length t) then Some (GZdd (<[Z.to_nat id := node]> t) root mn mx) else None.

(** while (isspace(c = is.get())) (107-108, 122-123) *)
Fixpoint get_nonspace (fuel : nat) (s : istream) : option (option ascii * istream) :=
  match fuel with
  | O => None
  | S f => let '(c, s) := i_get s in if isspace c then get_nonspace f s else Some (c, s)
  end.
(** readID (104-118); [s]'s characters bound the number of turns *)
Definition readID (s : istream) : option (Z * istream) :=
  '(c, s) ← get_nonspace (S (List.length (i_rest s))) s;
  if isdigit c then
    let '(id, s) := i_number false 0 (2 ^ 64 - 1) (i_unget c s) in Some ((id + 2) mod 2 ^ 64, s)
  else Some (match c with Some c => if Ascii.eqb c "T" || Ascii.eqb c "t" then 1 else 0 | None => 0 end, s).
(** skipSpace (120-126) *)
Definition skipSpace (s : istream) : option (option ascii * istream) :=
  '(c, s) ← get_nonspace (S (List.length (i_rest s))) s; Some (c, i_unget c s).
(** skipLine (128-131) *)
Fixpoint skipLine (fuel : nat) (s : istream) : option istream :=
  match fuel with
  | O => None
  | S f => if i_fail s then Some s else
           let '(c, s) := i_get s in
           match c with Some c => if Ascii.eqb c nl then Some s else skipLine f s | None => skipLine f s end
  end.
(** read(std::istream&) (87-102) *)
Definition read_one (z : gzdd) (s : istream) : option (gzdd * istream) :=
  '(c, s) ← skipSpace s;
  '(z, s) ← (if isdigit c then
     '(id, s) ← readID s;
     let '(index, s) := i_number true (- 2147483648) 2147483647 s in
     '(c0, s) ← readID s; '(c1, s) ← readID s;
     z ← addNode z id (GNode index c0 c1); Some (z, s)
   else Some (z, s));
  s ← skipLine (S (S (List.length (i_rest s)))) s; Some (z, s).
Fixpoint read_loop (fuel : nat) (z : gzdd) (s : istream) : option gzdd :=
  if i_fail s then Some z else
  match fuel with O => None | S f => '(z, s) ← read_one z s; read_loop f z s end.
Definition gz_read (txt : text) : option gzdd := read_loop (S (List.length txt)) gz_new (IS txt false false).

(** getRoot (134-139), getChild (141-146) *)
Definition gz_level (z : gzdd) (f : Z) : option Z :=
  if f =? 0 then Some 0 else if f =? 1 then Some (-1) else nd ← gz_table z !! Z.to_nat f; Some (gz_max z - gn_index nd + 1).
Definition gz_getRoot (z : gzdd) : option (Z * Z) := l ← gz_level z (gz_root z); Some (l, gz_root z).
Definition gz_getChild (z : gzdd) (f : Z) (take : nat) : option (Z * Z) :=
  nd ← gz_table z !! Z.to_nat f;
  let f := match take with O => gn_child0 nd | _ => gn_child1 nd end in
  l ← gz_level z f; Some (l, f).
(** the specification object: states are numbers (DdSpec<GraphillionZdd,uint64_t,2>, compared with == and hashed as one
    word, DdSpec.hpp 132-139, 312-331).  An exception (None) is mapped to the 0-terminal; it is proved not to occur. *)
Definition gz_spec (z : gzdd) : spec := {|
  St := Z;
  ar := 2;
  get_root := default (0, 0) (gz_getRoot z);
  get_child := fun f _ b => default (0, f) (gz_getChild z f b);
  equal_to := fun _ f g => f =? g;
  hash_code := fun _ f => (Z.to_N f * 314159257 mod 2 ^ 64)%N
|}.
