(** What a user of PodArrayDdSpec and HybridDdSpec thinks of: states are arrays (with a scalar), compared element by
    element. *)
From Verif Require Import Base Sem M_Storage.
Local Open Scope nat_scope.

(** an array of [n] values of an unsigned type of [k] bytes *)
Definition is_array (k n : nat) (a : list N) : Prop := length a = n /\ Forall (fun x => (x < 256 ^ N.of_nat k)%N) a.
(** [n] bytes of memory with any contents *)
Definition is_memory (n : nat) (p : bytes) : Prop := length p = n /\ Forall (fun b => (b < 256)%N) p.

(** The functions of the implementing class leave arrays behind, and getRoot does not depend on what was in the array
    before it was called. *)
Record pod_ok (U : pod) : Prop := {
  po_root : forall a, is_array (pa_size U) (pa_n U) a -> is_array (pa_size U) (pa_n U) (snd (pa_root U a));
  po_root_writes : forall a a', is_array (pa_size U) (pa_n U) a -> is_array (pa_size U) (pa_n U) a' -> pa_root U a = pa_root U a';
  po_child : forall a l b, is_array (pa_size U) (pa_n U) a -> b < pa_ar U -> is_array (pa_size U) (pa_n U) (snd (pa_child U a l b))
}.
Definition array_spec (U : pod) : spec := {|
  St := list N;
  ar := pa_ar U;
  get_root := pa_root U (replicate (pa_n U) 0%N);
  get_child := pa_child U;
  equal_to := fun _ a a' => bool_decide (a = a');
  hash_code := fun _ _ => 0%N
|}.

Record hybrid_ok (U : hybrid) : Prop := {
  ho_init : (hy_init U < 256 ^ N.of_nat (hy_ssize U))%N;
  ho_root : forall a, is_array (hy_size U) (hy_n U) a ->
    let r := snd (hy_root U (hy_init U) a) in (fst r < 256 ^ N.of_nat (hy_ssize U))%N /\ is_array (hy_size U) (hy_n U) (snd r);
  ho_root_writes : forall a a', is_array (hy_size U) (hy_n U) a -> is_array (hy_size U) (hy_n U) a' ->
    hy_root U (hy_init U) a = hy_root U (hy_init U) a';
  ho_child : forall s a l b, (s < 256 ^ N.of_nat (hy_ssize U))%N -> is_array (hy_size U) (hy_n U) a -> b < hy_ar U ->
    let r := snd (hy_child U s a l b) in (fst r < 256 ^ N.of_nat (hy_ssize U))%N /\ is_array (hy_size U) (hy_n U) (snd r)
}.
Definition pair_spec (U : hybrid) : spec := {|
  St := N * list N;
  ar := hy_ar U;
  get_root := hy_root U (hy_init U) (replicate (hy_n U) 0%N);
  get_child := fun s l b => hy_child U (fst s) (snd s) l b;
  equal_to := fun _ s s' => bool_decide (s = s');
  hash_code := fun _ _ => 0%N
|}.
