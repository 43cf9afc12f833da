(** Specification for the hash table: histories of operations on a plain list. *)
From Verif Require Import Base M_Hash.

Section spec.
  Context {A : Type} (hash : A -> N) (eqb : A -> A -> bool).

  (** Operations of a client: add, get, modification of an entry in place through the returned
      reference (MyHashMap::operator[]), rehash, clear, initialize. *)
  Inductive hop :=
  | OAdd (x : A)
  | OGet (x : A)
  | OPut (x : A) (f : A -> A)
  | ORehash (n : nat)
  | OClear
  | OInit (n : nat).

  (** The reference: the list of pairwise inequivalent elements present. *)
  Definition ref_find (R : list A) (x : A) : option A := List.find (fun y => eqb y x) R.
  Definition ref_step (R : list A) (o : hop) : list A * option A :=
    match o with
    | OAdd x => match ref_find R x with Some y => (R, Some y) | None => (R ++ [x], Some x) end
    | OGet x => (R, ref_find R x)
    | OPut x f => match ref_find R x with
                  | Some y => (map (fun z => if eqb z x then f z else z) R, Some (f y))
                  | None => (R ++ [f x], Some (f x))
                  end
    | ORehash _ => (R, None)
    | OClear | OInit _ => ([], None)
    end.

  (** The implementation: what the client sees is the element its reference denotes. *)
  Definition imp_step (t : htable A) (o : hop) : option (htable A * option A) :=
    match o with
    | OAdd x => r ← ht_add hash eqb t x; y ← ht_at (fst r) (snd r); Some (fst r, Some y)
    | OGet x => r ← ht_get hash eqb t x;
                match r with
                | None => Some (t, None)
                | Some i => y ← ht_at t i; Some (t, Some y)
                end
    | OPut x f => r ← ht_add hash eqb t x;
                  t' ← ht_modify (fst r) (snd r) f;
                  y ← ht_at t' (snd r); Some (t', Some y)
    | ORehash n => t' ← ht_rehash hash eqb t n; Some (t', None)
    | OClear => Some (ht_empty, None)
    | OInit n => Some (ht_init n, None)
    end.

  Fixpoint ref_run (R : list A) (ops : list hop) : list A * list (option A) :=
    match ops with
    | [] => (R, [])
    | o :: ops' => let (R1, y) := ref_step R o in
                   let (R2, ys) := ref_run R1 ops' in (R2, y :: ys)
    end.
  Fixpoint imp_run (t : htable A) (ops : list hop) : option (htable A * list (option A)) :=
    match ops with
    | [] => Some (t, [])
    | o :: ops' => '(t1, y) ← imp_step t o; '(t2, ys) ← imp_run t1 ops'; Some (t2, y :: ys)
    end.

  (** in-place modifications keep the key *)
  Definition op_ok (o : hop) : Prop :=
    match o with OPut x f => forall y, eqb y (f y) = true | _ => True end.
End spec.
Arguments hop : clear implicits.
