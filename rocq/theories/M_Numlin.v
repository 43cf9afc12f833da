(** apps/numberlink: Board (the numbers and makeVerticalLinks), NumlinZdd and DegreeZdd.
    [None] stands for an access out of range.  [Some None] stands for "return 0". *)
From Verif Require Import Base Sem.
Local Open Scope Z_scope.

(** Board (Board.hpp 28-34): rows, cols, number *)
Record board : Type := Board {
  b_rows : nat;
  b_cols : nat;
  b_number : list (list Z)
}.
Definition b_num (b : board) (i k : nat) : option Z := r ← b_number b !! i; r !! k.

(** conversions to uint8_t (the mates) and to uint16_t (the blank counter) *)
Definition w8 (z : Z) : nat := Z.to_nat (z mod 256).
Definition w16 (z : Z) : Z := z mod 65536.

(** The constructor argument and the constants of NumlinZdd (NumlinZdd.hpp 33-50) *)
Record numlin : Type := Numlin {
  nl_quiz : board;
  nl_max : Z
}.
Definition nl_m (q : numlin) : nat := b_rows (nl_quiz q).
Definition nl_n (q : numlin) : nat := b_cols (nl_quiz q).
Definition nl_top (q : numlin) : Z := Z.of_nat (nl_m q) * (Z.of_nat (nl_n q) - 1).

(** (t > 0) ? n + t : k, stored in a uint8_t *)
Definition nl_fresh (n : nat) (t : Z) (k : nat) : nat := w8 (if 0 <? t then Z.of_nat n + t else Z.of_nat k).

(** the state: S_State blank_count and A_State mate[n] *)
Definition nl_state : Type := Z * list nat.

(** NumlinZdd.cpp 35-42 *)
Definition nl_root (q : numlin) : option (Z * nl_state) :=
  mate ← mapM (fun j => t ← b_num (nl_quiz q) 0 j; Some (nl_fresh (nl_n q) t j)) (seq 0 (nl_n q));
  Some (nl_top q, (0, mate)).

(** taking the horizontal link between columns j and j + 1 (NumlinZdd.cpp 49-67) *)
Definition put (mate : list nat) (k x : nat) : option (list nat) :=
  if (k <? length mate)%nat then Some (<[k := x]> mate) else None.
Definition nl_take (n j : nat) (mate : list nat) : option (option (list nat)) :=
  mj ← mate !! j;
  mk ← mate !! S j;
  if ((mj =? n) || (mk =? n))%nat then Some None else
  if (mj =? S j)%nat then Some None else
  mate ← put mate (S j) (w8 (Z.of_nat n));
  mate ← put mate j (w8 (Z.of_nat n));
  if ((n <? mj) && (n <? mk))%nat then (if (mj =? mk)%nat then Some (Some mate) else Some None)
  else
    mate ← (if (mj <? n)%nat then put mate mj mk else Some mate);
    mate ← (if (mk <? n)%nat then put mate mk mj else Some mate);
    Some (Some mate).

(** "if (blank_count == max_blank) return 0; if (max_blank > 0) ++blank_count;" *)
Definition nl_blank (mb blank : Z) : option Z :=
  if blank =? mb then None else Some (if 0 <? mb then w16 (blank + 1) else blank).

(** one turn of the loop of a row that is not the bottom row (NumlinZdd.cpp 74-94) *)
Definition nl_close (q : numlin) (i k : nat) (s : nl_state) : option (option nl_state) :=
  let n := nl_n q in let '(blank, mate) := s in
  mk ← mate !! k;
  match (if (mk =? k)%nat then nl_blank (nl_max q) blank else Some blank) with
  | None => Some None
  | Some blank =>
      t ← b_num (nl_quiz q) (S i) k;
      if negb (mk =? k)%nat && negb (mk =? n)%nat then
        if 0 <? t then
          mate ← put mate k (w8 (Z.of_nat n));
          if (n <? mk)%nat then
            if Z.of_nat mk =? Z.of_nat n + t then Some (Some (blank, mate)) else Some None
          else mate ← put mate mk (w8 (Z.of_nat n + t)); Some (Some (blank, mate))
        else Some (Some (blank, mate))
      else mate ← put mate k (nl_fresh n t k); Some (Some (blank, mate))
  end.

(** one turn of the loop of the bottom row (NumlinZdd.cpp 97-108) *)
Definition nl_bottom (q : numlin) (k : nat) (s : nl_state) : option (option nl_state) :=
  let n := nl_n q in let '(blank, mate) := s in
  mk ← mate !! k;
  if (mk =? k)%nat then
    match nl_blank (nl_max q) blank with
    | None => Some None
    | Some blank => mate ← put mate k (w8 (Z.of_nat n)); Some (Some (blank, mate))
    end
  else if negb (mk =? n)%nat then Some None
  else mate ← put mate k (w8 (Z.of_nat n)); Some (Some (blank, mate)).

(** a loop whose body may leave the function by "return 0" *)
Fixpoint cuts {A S : Type} (f : S -> A -> option (option S)) (l : list A) (s : S) : option (option S) :=
  match l with
  | [] => Some (Some s)
  | x :: l' => r ← f s x; match r with Some s' => cuts f l' s' | None => Some None end
  end.

(** NumlinZdd.cpp 44-111 *)
Definition nl_child (q : numlin) (s : nl_state) (level : Z) (take : bool) : option (Z * nl_state) :=
  let n := nl_n q in
  let i := Z.to_nat ((nl_top q - level) / (Z.of_nat n - 1)) in
  let j := Z.to_nat ((nl_top q - level) mod (Z.of_nat n - 1)) in
  r ← (if take then nl_take n j (snd s) else Some (Some (snd s)));
  match r with
  | None => Some (0, s)
  | Some mate =>
      let jj := if (S (S j) <? n)%nat then j else (n - 1)%nat in
      let cols := seq j (S jj - j) in
      r ← (if (S i <? nl_m q)%nat then cuts (fun s k => nl_close q i k s) cols (fst s, mate)
           else cuts (fun s k => nl_bottom q k s) cols (fst s, mate));
      match r with
      | None => Some (0, s)
      | Some s' => Some (if 1 <=? level - 1 then level - 1 else -1, s')
      end
  end.

(** The specification object (HybridDdSpec, DdSpec.hpp 526-660).  After "return 0" and for accesses out of range the
    state is left as it was; the caller does not look at it. *)
Definition nl_spec (q : numlin) : spec := {|
  St := nl_state;
  ar := 2;
  get_root := default (0, (0, [])) (nl_root q);
  get_child := fun s level b => default (0, s) (nl_child q s level (negb (b =? 0)%nat));
  equal_to := fun _ s s' => bool_decide (s = s');
  hash_code := fun _ s => foldl (fun h x => (h + N.of_nat x) * 314159257 mod 2 ^ 64)%N (Z.to_N (fst s * 271828171 mod 2 ^ 64)) (snd s)
|}.

(** ** DegreeZdd (DegreeZdd.cpp 28-62); the state is the array of uint8_t degrees *)
Definition dz_top (b : board) : Z := Z.of_nat (b_rows b) * (Z.of_nat (b_cols b) - 1).
Definition dz_one (t : Z) : nat := if 0 <? t then 1 else 0.
Definition dz_root (b : board) : option (Z * list nat) :=
  d ← mapM (fun j => t ← b_num b 0 j; Some (dz_one t)) (seq 0 (b_cols b));
  Some (dz_top b, d).
Definition dz_take (j : nat) (d : list nat) : option (option (list nat)) :=
  dj ← d !! j;
  dk ← d !! S j;
  if ((dj =? 2) || (dk =? 2))%nat then Some None else
  d ← put d j (w8 (Z.of_nat dj + 1));
  d ← put d (S j) (w8 (Z.of_nat dk + 1));
  Some (Some d).
(** the body of the do loop *)
Definition dz_down (b : board) (i : nat) (d : list nat) (k : nat) : option (option (list nat)) :=
  dk ← d !! k;
  if (S i <? b_rows b)%nat then
    t ← b_num b (S i) k;
    d ← put d k ((if dk =? 1 then 1 else 0) + dz_one t)%nat; Some (Some d)
  else if (dk =? 1)%nat then Some None
  else d ← put d k 2%nat; Some (Some d).
(** "do ... while (++j == cols - 1)" is one turn, and a second one for the last column *)
Definition dz_child (b : board) (s : list nat) (level : Z) (take : bool) : option (Z * list nat) :=
  let n := b_cols b in
  let i := Z.to_nat ((dz_top b - level) / (Z.of_nat n - 1)) in
  let j := Z.to_nat ((dz_top b - level) mod (Z.of_nat n - 1)) in
  r ← (if take then dz_take j s else Some (Some s));
  match r with
  | None => Some (0, s)
  | Some d =>
      r ← cuts (dz_down b i) (if (S j =? n - 1)%nat then [j; S j] else [j]) d;
      match r with
      | None => Some (0, s)
      | Some d => Some (if 0 <? level - 1 then level - 1 else -1, d)
      end
  end.
Definition dz_spec (b : board) : spec := {|
  St := list nat;
  ar := 2;
  get_root := default (0, []) (dz_root b);
  get_child := fun s level k => default (0, s) (dz_child b s level (negb (k =? 0)%nat));
  equal_to := fun _ s s' => bool_decide (s = s');
  hash_code := fun _ s => foldl (fun h x => (h + N.of_nat x) * 314159257 mod 2 ^ 64)%N 0%N s
|}.

(** ** Board::makeVerticalLinks (Board.cpp 170-197).  [hl i j] is hlink[i][j]; the result is vlink, row by row.
    The degree array is kept one row at a time: the degrees of row i that come from row i - 1 are [up]. *)
Definition b2n (x : bool) : nat := if x then 1 else 0.
Definition mv_degree (b : board) (hl : nat -> nat -> bool) (i j : nat) : option nat :=
  t ← b_num b i j;
  Some ((if (t =? 0)%Z then 0 else 1) + (if (1 <=? j)%nat then b2n (hl i (j - 1)%nat) else 0)
        + (if (j + 1 <? b_cols b)%nat then b2n (hl i j) else 0))%nat.
Definition mv_row (b : board) (hl : nat -> nat -> bool) (up : list bool) (i : nat) : option (list bool) :=
  mapM (fun j => d ← mv_degree b hl i j; u ← up !! j; Some (d + b2n u =? 1)%nat) (seq 0 (b_cols b)).
Fixpoint mv_rows (b : board) (hl : nat -> nat -> bool) (up : list bool) (rs : list nat) : option (list (list bool)) :=
  match rs with
  | [] => Some []
  | i :: rs' => r ← mv_row b hl up i; t ← mv_rows b hl r rs'; Some (r :: t)
  end.
Definition makeVerticalLinks (b : board) (hl : nat -> nat -> bool) : option (list (list bool)) :=
  mv_rows b hl (replicate (b_cols b) false) (seq 0 (b_rows b - 1)).
