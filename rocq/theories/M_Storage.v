(** DdSpec.hpp: how the states of PodArrayDdSpec (373-503) and HybridDdSpec (526-685) are stored, copied, compared and
    hashed as raw memory.  A block of memory is a list of bytes; size_t (Word) has 8 bytes, little endian.  The
    implementing class reads and writes array elements only; bytes between the last element and the end of the last
    word keep whatever was there. *)
From Verif Require Import Base Sem.
Local Open Scope nat_scope.

Definition bytes := list N.
(** the value of some bytes as an unsigned integer, and back *)
Definition le_val (bs : bytes) : N := foldr (fun b x => b + 256 * x)%N 0%N bs.
Fixpoint le_bytes (k : nat) (x : N) : bytes := match k with O => [] | S k' => (x mod 256)%N :: le_bytes k' (x / 256)%N end.
(** static_cast<I const*>(p)[i] for an unsigned type I of [k] bytes; None = outside the block *)
Definition read_at (k : nat) (p : bytes) (i : nat) : option N :=
  if k * i + k <=? length p then Some (le_val (take k (drop (k * i) p))) else None.
(** the same for an assignment *)
Definition write_at (k : nat) (p : bytes) (i : nat) (x : N) : option bytes :=
  if k * i + k <=? length p then Some (take (k * i) p ++ le_bytes k x ++ drop (k * i + k) p) else None.

(** DdBuilderBase::getSpecNodeSize (DdBuilder.hpp 83-87, 146-150), in SpecNodes of 8 bytes; [header] is 1 or 2 *)
Definition specNodeSize (header n : nat) : nat := header + (n + 8 - 1) / 8.

(** the loops of get_copy (426-433, 595-605), equalTo (468-476, 651-664) and hashCode (449-458, 630-641): from word w0 to
    word w1 *)
Definition copy_words (w0 w1 : nat) (to from : bytes) : option bytes :=
  ofold (fun to i => x ← read_at 8 from i; write_at 8 to i x) (seq w0 (w1 - w0)) to.
Fixpoint equal_units (k : nat) (is : list nat) (p q : bytes) : option bool :=
  match is with
  | [] => Some true
  | i :: is' => x ← read_at k p i; y ← read_at k q i; if (x =? y)%N then equal_units k is' p q else Some false
  end.
Definition hash_units (k : nat) (is : list nat) (p : bytes) (h : N) : option N :=
  ofold (fun h i => x ← read_at k p i; Some ((h + x) mod 2 ^ 64 * 314159257 mod 2 ^ 64)%N) is h.

(** the elements of an array of [n] elements of [k] bytes at the start of a block, and the block after all of them have
    been assigned *)
Definition get_array (k n : nat) (p : bytes) : option (list N) := mapM (read_at k p) (seq 0 n).
Definition put_array (k : nat) (p : bytes) (a : list N) : option bytes :=
  ofold (fun p '(i, x) => write_at k p i x) (zip (seq 0 (length a)) a) p.

(** ** PodArrayDdSpec<S,T,AR>: sizeof(T), arraySize and the two functions of the implementing class, which get the
    contents of the array and return the contents they leave there *)
Record pod := Pod {
  pa_ar : nat;
  pa_size : nat;
  pa_n : nat;
  pa_root : list N -> Z * list N;
  pa_child : list N -> Z -> nat -> Z * list N
}.
(** setArraySize (392-399), datasize (410-415) *)
Definition pa_words (U : pod) : nat := (pa_n U * pa_size U + 8 - 1) / 8.
Definition pa_datasize (U : pod) : nat := pa_words U * 8.
(** get_root (417-419), get_child (421-424), on a given block *)
Definition pa_get_root (U : pod) (p : bytes) : option (Z * bytes) :=
  a ← get_array (pa_size U) (pa_n U) p; let '(l, a) := pa_root U a in p ← put_array (pa_size U) p a; Some (l, p).
Definition pa_get_child (U : pod) (p : bytes) (l : Z) (b : nat) : option (Z * bytes) :=
  a ← get_array (pa_size U) (pa_n U) p; let '(c, a) := pa_child U a l b in p ← put_array (pa_size U) p a; Some (c, p).
(** get_copy (426-433) *)
Definition pa_get_copy (U : pod) (to from : bytes) : option bytes := copy_words 0 (pa_words U) to from.
(** equalTo (468-476), hashCode (449-458) *)
Definition pa_equal_to (U : pod) (p q : bytes) : option bool := equal_units 8 (seq 0 (pa_words U)) p q.
Definition pa_hash_code (U : pod) (p : bytes) : option N := hash_units 8 (seq 0 (pa_words U)) p 0%N.

(** The specification the builders see.  The root state is written into a block with contents [mem0]; before get_child
    the state is copied into another block with contents [fresh s l b] (DdBuilder.hpp 324-325). Undefined behaviour
    (None) is mapped to the 0-terminal, a wrong comparison and hash code 0; it is proved not to occur. *)
Definition pod_spec (U : pod) (mem0 : bytes) (fresh : bytes -> Z -> nat -> bytes) : spec := {|
  St := bytes;
  ar := pa_ar U;
  get_root := default (0%Z, []) (pa_get_root U mem0);
  get_child := fun s l b => default (0%Z, []) (p ← pa_get_copy U (fresh s l b) s; pa_get_child U p l b);
  equal_to := fun _ p q => default false (pa_equal_to U p q);
  hash_code := fun _ p => default 0%N (pa_hash_code U p)
|}.

(** ** HybridDdSpec<S,TS,TA,AR>: sizeof(TS), sizeof(TA), arraySize; S_State() as bytes; the scalar is passed as the value
    of its bytes.  TS has no padding (its copy constructor copies all bytes). *)
Record hybrid := Hybrid {
  hy_ar : nat;
  hy_ssize : nat;
  hy_size : nat;
  hy_n : nat;
  hy_init : N;
  hy_root : N -> list N -> Z * (N * list N);
  hy_child : N -> list N -> Z -> nat -> Z * (N * list N)
}.
(** S_WORDS (533-534), setArraySize (557-562), datasize (573-575) *)
Definition hy_swords (U : hybrid) : nat := (hy_ssize U + 8 - 1) / 8.
Definition hy_words (U : hybrid) : nat := hy_swords U + (hy_n U * hy_size U + 8 - 1) / 8.
Definition hy_datasize (U : hybrid) : nat := hy_words U * 8.
(** s_state, a_state (539-554): the array starts at word S_WORDS *)
Definition hy_get (U : hybrid) (p : bytes) : option (N * list N) :=
  s ← read_at (hy_ssize U) p 0; a ← get_array (hy_size U) (hy_n U) (drop (8 * hy_swords U) p); Some (s, a).
Definition hy_put (U : hybrid) (p : bytes) (s : N) (a : list N) : option bytes :=
  p ← write_at (hy_ssize U) p 0 s;
  q ← put_array (hy_size U) (drop (8 * hy_swords U) p) a;
  Some (take (8 * hy_swords U) p ++ q).
(** construct (577-579), get_root (581-584), get_child (586-589) *)
Definition hy_get_root (U : hybrid) (p : bytes) : option (Z * bytes) :=
  p ← write_at (hy_ssize U) p 0 (hy_init U);
  '(s, a) ← hy_get U p;
  let '(l, (s, a)) := hy_root U s a in p ← hy_put U p s a; Some (l, p).
Definition hy_get_child (U : hybrid) (p : bytes) (l : Z) (b : nat) : option (Z * bytes) :=
  '(s, a) ← hy_get U p;
  let '(c, (s, a)) := hy_child U s a l b in p ← hy_put U p s a; Some (c, p).
(** getCopy (591-593), get_copy (595-605) *)
Definition hy_get_copy (U : hybrid) (to from : bytes) : option bytes :=
  s ← read_at (hy_ssize U) from 0; to ← write_at (hy_ssize U) to 0 s; copy_words (hy_swords U) (hy_words U) to from.
(** rawHashCode, rawEqualTo (130-179): the widest unit that divides the size *)
Definition raw_unit (size : nat) : nat :=
  if (size mod 8 =? 0) then 8 else if (size mod 4 =? 0) then 4 else if (size mod 2 =? 0) then 2 else 1.
Definition raw_units (size : nat) : list nat := seq 0 (size / raw_unit size).
(** hash_code (630-641), equal_to (651-664) *)
Definition hy_hash_code (U : hybrid) (p : bytes) : option N :=
  h ← hash_units (raw_unit (hy_ssize U)) (raw_units (hy_ssize U)) p 0%N;
  hash_units 8 (seq (hy_swords U) (hy_words U - hy_swords U)) p (h * 271828171 mod 2 ^ 64)%N.
Definition hy_equal_to (U : hybrid) (p q : bytes) : option bool :=
  e ← equal_units (raw_unit (hy_ssize U)) (raw_units (hy_ssize U)) p q;
  if negb e then Some false else equal_units 8 (seq (hy_swords U) (hy_words U - hy_swords U)) p q.

Definition hybrid_spec (U : hybrid) (mem0 : bytes) (fresh : bytes -> Z -> nat -> bytes) : spec := {|
  St := bytes;
  ar := hy_ar U;
  get_root := default (0%Z, []) (hy_get_root U mem0);
  get_child := fun s l b => default (0%Z, []) (p ← hy_get_copy U (fresh s l b) s; hy_get_child U p l b);
  equal_to := fun _ p q => default false (hy_equal_to U p q);
  hash_code := fun _ p => default 0%N (hy_hash_code U p)
|}.
