(** C30: the hash table behaves like a set under every history of operations. *)
From Verif Require Import Base M_Hash S_Hash P_Hash.

(** For every equivalence relation [eqb] and compatible [hash], and for every history of
    add / get / in-place modification / rehash / clear / initialize starting from a default
    constructed or initialised table: every operation terminates without undefined behaviour, the
    client sees exactly the elements a plain list without hashing would return, and the
    final size and contents (in any order) are those of the list. *)
Theorem C30_hash_table :
  forall (A : Type) (hash : A -> N) (eqb : A -> A -> bool),
  (forall x, eqb x x = true) ->
  (forall x y, eqb x y = eqb y x) ->
  (forall x y z, eqb x y = true -> eqb y z = true -> eqb x z = true) ->
  (forall x y, eqb x y = true -> hash x = hash y) ->
  forall ops, Forall (op_ok eqb) ops ->
  forall t, (t = ht_empty \/ exists n, t = ht_init n) ->
  exists t', imp_run hash eqb t ops = Some (t', snd (ref_run eqb [] ops)) /\
    ht_elems t' ≡ₚ fst (ref_run eqb [] ops) /\ hsize t' = length (fst (ref_run eqb [] ops)).
Proof.
  intros A hash eqb Hr Hs Ht Hh ops Hops t Hinit.
  apply imp_run_ok; try done.
  - destruct Hinit as [->|[n ->]]; [by right|left; by apply ht_init_strong].
  - destruct Hinit as [->|[n ->]]; [done|]. by destruct (@ht_init_facts A n) as (_ & _ & _ & _ & ->).
Qed.
Print Assumptions C30_hash_table.

(** A map from natural number keys with a colliding hash, driven through a rehash. *)
Definition ex_eqb (x y : nat * nat) : bool := fst x =? fst y.
Definition ex_hash (x : nat * nat) : N := N.of_nat (fst x) / 3.
Definition ex_ops : list (hop (nat * nat)) :=
  map (fun k => OAdd (k, 0)) (seq 0 12) ++
  [OPut (4, 0) (fun p => (fst p, 7)); OGet (4, 9); OGet (40, 0); OAdd (11, 3); ORehash 5; OGet (4, 0)].
Example C30_case :
  (forall x, ex_eqb x x = true) /\ (forall x y, ex_eqb x y = true -> ex_hash x = ex_hash y) /\
  Forall (op_ok ex_eqb) ex_ops /\
  (fun r => (length (slots (fst r)), drop 12 (snd r))) <$> imp_run ex_hash ex_eqb ht_empty ex_ops
  = Some (67, [Some (4, 7); Some (4, 7); None; Some (11, 0); None; Some (4, 7)]).
Proof.
  split_and!.
  - intros x. apply Nat.eqb_refl.
  - intros x y H. apply Nat.eqb_eq in H. unfold ex_hash. by rewrite H.
  - unfold ex_ops. apply Forall_app. split; [apply Forall_forall; intros o Ho;
      apply elem_of_list_In, in_map_iff in Ho as (k & <- & _); exact I|].
    repeat constructor. intros y. apply Nat.eqb_refl.
  - vm_compute. reflexivity.
Qed.

(** The table size chosen for a request is never smaller than the request. *)
Theorem C30_prime_size : forall n, (n <= primeSize n)%N.
Proof. exact primeSize_ge. Qed.
Print Assumptions C30_prime_size.
