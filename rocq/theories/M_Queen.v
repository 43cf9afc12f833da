(** apps/ddqueens/NQueenZdd.hpp 32-151: NQueenZddBase, NQueenZdd, NRookZdd.
    The state is the array of n bitmaps (uint32_t); bitmap[i] has the columns that are still free in row i.
    [None] stands for a shift by 32 or more, an access out of range, or a level below 1. *)
From Verif Require Import Base Sem.
Local Open Scope nat_scope.

(** members n, topLevel, takeTop (36-38) and the template parameter rookOnly *)
Record queens := Queens { q_n : nat; q_top : nat; q_take : bool; q_rook : bool }.
(** NQueenZddBase(n) (45-49), NQueenZddBase(n, firstCol) (51-56); the assertions are preconditions *)
Definition queens_all (n : nat) (rook : bool) : queens := Queens n (n * n) false rook.
Definition queens_first (n firstCol : nat) (rook : bool) : queens := Queens n (n * n - firstCol) true rook.

(** operator~ of uint32_t *)
Definition not32 (x : N) : N := N.lnot x 32.
(** bit (40-42) *)
Definition qbit (j : nat) : option N := if j <? 32 then Some (N.shiftl 1 (N.of_nat j)) else None.
(** x &= ~bit(j) *)
Definition qclear (x : N) (j : nat) : option N := b ← qbit j; Some (N.land x (not32 b)).
(** (x & bit(j)) != 0 *)
Definition qtest (x : N) (j : nat) : option bool := b ← qbit j; Some (negb (N.land x b =? 0)%N).
(** __builtin_popcount *)
Definition popcount (x : N) : nat := length (filter (fun j => N.testbit x (N.of_nat j) = true) (seq 0 32)).

Section spec.
  Context (Q : queens).
  Notation n := (q_n Q).

  (** 75-80 and 108-114: the columns of row ii that a queen (rook) on (i, j) leaves free *)
  Definition q_attack (i j ii : nat) (x : N) : option N :=
    x ← qclear x j;
    if q_rook Q then Some x else
    let d := i - ii in
    x ← (if d <=? j then qclear x (j - d) else Some x);
    if j + d <? n then qclear x (j + d) else Some x.

  (** the loop 74-83 over ii = k - 1, ..., 0; the flag tells that it returned 0 *)
  Fixpoint q_place (i j k : nat) (s : list N) (total : N) : option (bool * list N * N) :=
    match k with
    | 0 => Some (false, s, total)
    | S ii =>
        x ← s !! ii;
        x ← q_attack i j ii x;
        let s := <[ii := x]> s in
        if (x =? 0)%N then Some (true, s, total) else q_place i j ii s (N.lor total x)
    end.

  (** the loop 107-120: takable and total *)
  Fixpoint q_check (i j k : nat) (s : list N) (total : N) : option (bool * N) :=
    match k with
    | 0 => Some (true, total)
    | S ii =>
        x ← s !! ii;
        x ← q_attack i j ii x;
        if (x =? 0)%N then Some (false, total) else q_check i j ii s (N.lor total x)
    end.

  (** the loop 98-127; the fuel is the level (it decreases) *)
  Fixpoint q_skip (fuel : nat) (level : nat) (s : list N) : option (Z * list N) :=
    match fuel with
    | 0 => None
    | S f =>
        let level := level - 1 in
        if level =? 0 then None else
        let i := (level - 1) / n in
        let j := (level - 1) mod n in
        x ← s !! i;
        free ← qtest x j;
        found ← (if (free : bool) then
                   '(takable, total) ← q_check i j i s 0%N;
                   Some ((takable : bool) && (i <=? popcount total))
                 else Some false);
        if (found : bool) then Some (Z.of_nat level, s) else
        x ← qclear x j;
        let s := <[i := x]> s in
        if (x =? 0)%N then Some (0%Z, s) else q_skip f level s
    end.

  (** getRoot (58-64) *)
  Definition q_root : option (Z * list N) :=
    if n <? 32 then Some (Z.of_nat (q_top Q), replicate n (not32 (N.land (N.shiftl (N.ones 32) (N.of_nat n)) (N.ones 32))))
    else None.

  (** getChild (66-130) *)
  Definition q_child (s : list N) (level : nat) (b : bool) : option (Z * list N) :=
    if level =? 0 then None else
    let i := (level - 1) / n in
    let j := (level - 1) mod n in
    if b then
      x ← s !! i;
      free ← qtest x j;
      if negb free then Some (0%Z, s) else
      '(ret, s, total) ← q_place i j i s 0%N;
      if (ret : bool) then Some (0%Z, s) else
      if i =? 0 then Some ((-1)%Z, s) else
      if popcount total <? i then Some (0%Z, s) else
      let level := i * n + 1 in
      q_skip level level (<[i := 0%N]> s)
    else
      if q_take Q && (level =? q_top Q) then Some (0%Z, s) else
      x ← s !! i;
      x ← qclear x j;
      let s := <[i := x]> s in
      if (x =? 0)%N then Some (0%Z, s) else
      q_skip level level s.
End spec.

(** The specification object; equalTo and hashCode of PodArrayDdSpec (DdSpec.hpp 449-476) work on the words of the
    array, here on the elements (see C47).  [None] is mapped to the 0-terminal; it is proved not to occur. *)
Definition queen_spec (Q : queens) : spec := {|
  St := list N;
  ar := 2;
  get_root := default (0%Z, []) (q_root Q);
  get_child := fun s level b => default (0%Z, s) (q_child Q s (Z.to_nat level) (negb (b =? 0)));
  equal_to := fun _ s s' => bool_decide (s = s');
  hash_code := fun _ s => foldl (fun h x => (h + x) * 314159257 mod 2 ^ 64)%N 0%N s
|}.
