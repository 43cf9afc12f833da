(** apps/ddqueens/NAryZdd.hpp, ZddInterleave.hpp and ColoredZdd.hpp. *)
From Verif Require Import Base Sem M_Table M_Conv.
Local Open Scope nat_scope.

(** ** NAryZdd.hpp *)
(** getRoot (44-46) of NAryZddBase(m, n) (38-42); the assertions m >= 1 and n >= 1 are preconditions *)
Definition na_root (m n : nat) : Z := Z.of_nat (m * n).
(** getChild (48-58) *)
Definition na_child (m : nat) (oneHot : bool) (level : nat) (take : bool) : Z :=
  if take then
    let level := ((level - 1) / m) * m in
    if level =? 0 then (-1)%Z else Z.of_nat level
  else
    let level := level - 1 in
    if oneHot && (level mod m =? 0) then 0%Z else Z.of_nat level.
(** NAryZddBase (32-59), a StatelessDdSpec *)
Definition nary_base (m n : nat) (oneHot : bool) : spec := {|
  St := unit;
  ar := 2;
  get_root := (na_root m n, tt);
  get_child := fun _ level b => (na_child m oneHot (Z.to_nat level) (negb (b =? 0)), tt);
  equal_to := fun _ _ _ => true;
  hash_code := fun _ _ => 0%N
|}.
(** NAryZdd (61-65), OneHotNAryZdd (67-71) *)
Definition nary_zdd (arity length : nat) : spec := nary_base (arity - 1) length false.
Definition one_hot (arity length : nat) : spec := nary_base arity length true.

(** ** getLevel, the same in ZddInterleave.hpp (38-51) and ColoredZdd.hpp (37-50) *)
Definition tr_level1 (n : nat) (f : nid) (k : nat) : Z :=
  if row f =? 0 then (- Z.of_nat (col f))%Z else Z.of_nat ((row f - 1) * n + k + 1).
(** the loop from [k] on *)
Fixpoint tr_loop (n k : nat) (a : list nid) (level : Z) : Z :=
  match a with
  | [] => if (level =? 0)%Z then (-1)%Z else level
  | f :: a => let i := tr_level1 n f k in if (i =? 0)%Z then 0%Z else tr_loop n (S k) a (Z.max level i)
  end.
Definition tr_level (n : nat) (a : list nid) : Z := tr_loop n 0 a 0.
(** getRoot (80-85; 71-76) *)
Definition tr_root (dds : list dd) : list nid := map rt dds.

(** the 64-bit word of a NodeId (Node.hpp 57-65), as PodArrayDdSpec hashes it *)
Definition nid_word (f : nid) : N := (N.of_nat (row f) * 2 ^ 44 + (if attr f then 2 ^ 43 else 0) + N.of_nat (col f))%N.
Definition nids_hash (a : list nid) : N := foldl (fun h f => (h + nid_word f) * 314159257 mod 2 ^ 64)%N 0%N a.

(** PodArrayDdSpec compares the words *)
Global Instance nid_word_dec : EqDecision nid.
Proof. solve_decision. Defined.

(** ** ZddInterleave.hpp *)
(** getChild (87-97); None: an access out of range *)
Definition il_child (dds : list dd) (a : list nid) (level b : nat) : option (list nid) :=
  let n := length dds in
  let i := (level - 1) / n + 1 in
  let k := (level - 1) mod n in
  f ← a !! k;
  if row f =? i then
    d ← dds !! k;
    g ← child (tab d) f b;
    Some (<[k := g]> a)
  else if negb (b =? 0) then Some (<[k := n0]> a)
  else Some a.
(** ZddInterleave (33-98); [dds] are the diagrams that the constructors (54-78) point to *)
Definition interleave (dds : list dd) : spec := {|
  St := list nid;
  ar := 2;
  get_root := (tr_level (length dds) (tr_root dds), tr_root dds);
  get_child := fun a level b =>
    match il_child dds a (Z.to_nat level) b with Some a' => (tr_level (length dds) a', a') | None => (0%Z, a) end;
  equal_to := fun _ a a' => bool_decide (a = a');
  hash_code := fun _ a => nids_hash a
|}.
(** ZddInterleave(dd, n) (54-60), ZddInterleave(dd, n, pos) (72-78); topLevel is DdStructure::topLevel *)
Definition il_same (d : dd) (n : nat) : list dd := replicate n d.
Definition il_at (d : dd) (n pos : nat) : option (list dd) :=
  dc ← universal 2 (row (rt d));
  Some (map (fun k => if k =? pos then d else dc) (seq 0 n)).

(** ** ColoredZdd.hpp *)
(** the loop 90-94 over kk = k - 1, ..., 0 *)
Fixpoint co_clear (dds : list dd) (i k : nat) (a : list nid) : option (list nid) :=
  match k with
  | 0 => Some a
  | S kk =>
      f ← a !! kk;
      if row f =? i then
        d ← dds !! kk;
        g ← child (tab d) f 0;
        co_clear dds i kk (<[kk := g]> a)
      else co_clear dds i kk a
  end.
(** the loop 97-103: lastOne *)
Fixpoint co_last (i k : nat) (a : list nid) : option bool :=
  match k with
  | 0 => Some true
  | S kk => f ← a !! kk; if row f =? i then Some false else co_last i kk a
  end.
(** getChild (78-112): Some None is [return 0] of line 104 *)
Definition co_child (dds : list dd) (a : list nid) (level : nat) (b : bool) : option (option (list nid)) :=
  let n := length dds in
  let i := (level - 1) / n + 1 in
  let k := (level - 1) mod n in
  f ← a !! k;
  if b then
    g ← (if row f =? i then d ← dds !! k; child (tab d) f 1 else Some n0);
    a ← co_clear dds i k (<[k := g]> a);
    Some (Some a)
  else
    last ← co_last i k a;
    if (last : bool) then Some None else
    if row f =? i then
      d ← dds !! k;
      g ← child (tab d) f 0;
      Some (Some (<[k := g]> a))
    else Some (Some a).
(** ColoredZdd (33-113) *)
Definition colored (dds : list dd) : spec := {|
  St := list nid;
  ar := 2;
  get_root := (tr_level (length dds) (tr_root dds), tr_root dds);
  get_child := fun a level b =>
    match co_child dds a (Z.to_nat level) (negb (b =? 0)) with
    | Some (Some a') => (tr_level (length dds) a', a')
    | _ => (0%Z, a)
    end;
  equal_to := fun _ a a' => bool_decide (a = a');
  hash_code := fun _ a => nids_hash a
|}.
