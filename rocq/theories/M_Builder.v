(** DdBuilder (dd/DdBuilder.hpp 174-389), DdBuilderMP (394-672) and the constructor
    DdStructure(spec, useMP) (DdStructure.hpp 104-155) as instances of M_Engine.v. *)
From Verif Require Import Base Sem M_Table M_Hash M_Sweeper M_Engine.
Local Open Scope Z_scope.

(** Hasher<Spec> (DdBuilder.hpp 91-111) *)
Definition sp_hash (sp : spec) (i : nat) (s : St sp) : N := hash_code sp (Z.of_nat i) s.
Definition sp_eqb (sp : spec) (i : nat) (s s' : St sp) : bool := equal_to sp (Z.of_nat i) s s'.

(** spec.get_child(state(pp), i, b) (DdBuilder.hpp 325-326): one list of pending nodes per level *)
Definition seq_child (sp : spec) (i _g : nat) (s : St sp) (b : nat) : option (Z * nat * St sp) :=
  let r := get_child sp s (Z.of_nat i) b in Some (fst r, 0%nat, snd r).

(** initialize (DdBuilder.hpp 231-252) and DdStructure::construct_ (DdStructure.hpp 116-134).
    The table handler starts with the terminal row only. *)
Definition construct_dd (sp : spec) : option dd :=
  let '(c, s) := get_root sp in
  if c <=? 0 then Some (Dd (ar sp) (init_table (ar sp) 0) (if c =? 0 then n0 else n1))
  else '(t, root) ← build (ar sp) (sp_hash sp) (sp_eqb sp) 1 (fun _ => 1%nat) (seq_child sp)
                      (fun _ => [(0%nat, 0%nat)]) false (Z.to_nat c) 0 s;
       Some (Dd (ar sp) t root).

(** DdBuilderMP: the child is put into the list of task hash_code % tasks (DdBuilder.hpp 637-643) *)
Definition mp_child (sp : spec) (tasks : nat) (i _g : nat) (s : St sp) (b : nat) : option (Z * nat * St sp) :=
  let r := get_child sp s (Z.of_nat i) b in
  Some (fst r, N.to_nat (hash_code sp (fst r) (snd r) mod N.of_nat tasks)%N, snd r).

(** [sched i] lists the tasks of level i in the order in which they are expanded in pass 2, each with
    the thread that does it (omp for schedule(dynamic), DdBuilder.hpp 598-601).  Threads only touch
    their own lists snodeTables[yy] and disjoint output nodes, so an interleaving of threads has the
    same effect as running the tasks one after the other in an order that keeps the order of each
    thread. *)
Definition construct_mp (sp : spec) (threads tasks : nat) (sched : nat -> list (nat * nat)) : option dd :=
  let '(c, s) := get_root sp in
  if c <=? 0 then Some (Dd (ar sp) (init_table (ar sp) 0) (if c =? 0 then n0 else n1))
  else '(t, root) ← build (ar sp) (sp_hash sp) (sp_eqb sp) threads (fun _ => tasks) (mp_child sp tasks)
                      sched false (Z.to_nat c) 0 s;
       Some (Dd (ar sp) t root).

(** every task is executed exactly once, by some thread *)
Definition sched_ok (threads : nat) (ntask : nat -> nat) (sched : nat -> list (nat * nat)) : Prop :=
  forall i, map fst (sched i) ≡ₚ seq 0 (ntask i) /\ Forall (fun x => (snd x < threads)%nat) (sched i).
