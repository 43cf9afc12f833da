(** apps/cnfbdd without the option -c: the map to canonical clauses, with -n. *)
From stdpp Require Import gmap sorting.
From Verif Require Import Base Sem M_Table M_Engine M_Builder M_Eval Props_Reduce S_Api M_Cnf M_CnfBdd.
Local Open Scope Z_scope.

(** ClauseCmpForRelaxing (CnfToBdd.hpp 188-203) *)
Fixpoint relaxing_cmp (a b : list Z) : bool :=
  match a, b with
  | x :: a', y :: b' => if negb (Z.abs x =? Z.abs y) then Z.abs y <? Z.abs x else if negb (x =? y) then y <? x else relaxing_cmp a' b'
  | _, _ => (length b <? length a)%nat
  end.
(** rev, cp (CnfToBdd.cpp 178-187): the reversed clauses with a terminator and their numbers.  Equal clauses may come in any order after std::sort: a
    relation. *)
Definition reversed (cnf : list (list Z)) : list (Z * list Z) := map (fun p => (fst p, reverse (snd p) ++ [0])) (numbered_from 1 cnf).
Definition relaxed (cnf : list (list Z)) (cp : list (Z * list Z)) : Prop :=
  cp ≡ₚ reversed cnf /\ StronglySorted (fun a b => relaxing_cmp (snd b) (snd a) = false) cp.

(** clauseMap: a number for every level and clause number *)
Definition cmap : Type := Z -> Z -> Z.
Section map.
  Context (nv : nat).
  (** levelOfLiteral (CnfToBdd.hpp 120-123); of the terminator nv + 1, as in line 202 of CnfToBdd.cpp *)
  Definition level_of_lit (x : Z) : Z := Z.of_nat nv - Z.abs x + 1.
  (** while (i1 <= nv && clauseMap[i1][j2] != j2) ++i1 (CnfToBdd.cpp 206-208); nv + 1 rounds suffice *)
  Fixpoint first_free (fuel : nat) (m : cmap) (i1 j2 : Z) : Z :=
    match fuel with O => i1 | S f => if (i1 <=? Z.of_nat nv) && negb (m i1 j2 =? j2) then first_free f m (i1 + 1) j2 else i1 end.
  (** the loop 212-221; the assertion and the cubes, which nothing reads, are not modelled *)
  Definition assign (i1 i2 j1 : Z) (m : cmap) (j2 : Z) : cmap := fun i j => if (i1 <=? i) && (i <? i2) && (j =? j2) then j1 else m i j.
  (** the clauses after p with literal t1 at position k: p + 1 up to q when the loop 211-226 ends *)
  Fixpoint group (k : nat) (t1 : Z) (cs : list (Z * list Z)) : list (Z * list Z) :=
    match cs with q :: cs' => if nth k (snd q) 0 =? t1 then q :: group k t1 cs' else [] | [] => [] end.
  (** makeClauseMap (CnfToBdd.cpp 192-230).  d: depth of the recursion.  At position nv every clause has ended, so depth nv + 1 suffices. *)
  Fixpoint make_map (d : nat) (k : nat) (cs : list (Z * list Z)) (m : cmap) : cmap :=
    match d with
    | O => m
    | S d' =>
        (fix loop (cs : list (Z * list Z)) (m : cmap) : cmap :=
           match cs with
           | [] => m
           | p :: rest =>
               loop rest
                 match rest with
                 | [] => m
                 | q :: _ =>
                     let t1 := nth k (snd p) 0 in
                     if t1 =? 0 then m
                     else if negb (nth k (snd q) 0 =? t1) then m
                     else
                       let i2 := level_of_lit (nth (S k) (snd p) 0) in
                       let i1 := first_free (S nv) m (level_of_lit t1) (fst q) in
                       if Z.of_nat nv <? i1 then m
                       else
                         let g := group k t1 rest in
                         make_map d' (S k) (p :: g) (foldl (fun m q => assign i1 i2 (fst p) m (fst q)) m g)
                 end
           end) cs m
    end.
  (** clauseMap after prepare (165-189) *)
  Definition clause_map (cp : list (Z * list Z)) : cmap := make_map (S nv) 0 cp (fun _ j => j).

  (** getChild (CnfToBdd.cpp 402-461) with the map and with -n, where badState is always false.  The state is the pair of s.set and s.id. *)
  Definition cm_child (cnf : list (list Z)) (m : cmap) (s : list Z * list Z) (level : Z) (take : nat) : Z * (list Z * list Z) :=
    let work := cb_work nv cnf (fst s) level take in
    let level' := level - 1 in
    if (level' <=? completing nv cnf) && bool_decide (work = []) then (-1, s)
    else (level', (new_set work, new_set (map (fun j => to_work (m level' j)) work))).
  Definition cm_spec (cnf : list (list Z)) (m : cmap) : spec :=
    {| St := list Z * list Z; ar := 2;
       get_root := let r := cb_root nv in (fst r, (snd r, snd r));
       get_child := cm_child cnf m;
       equal_to := fun _ s o => bool_decide (snd s = snd o);
       hash_code := fun _ s => cb_hash (snd s) |}.
End map.
(** run (cnfbdd.cpp 80-120) with -n: the diagram after bddReduce *)
Definition cnfbdd_map (sort : bool) (nv nc : nat) (numbers : list Z) (junk : Z) (d : dd) : Prop :=
  exists cnf cp d0, cb_load sort nv nc numbers junk cnf /\ relaxed cnf cp /\ construct_dd (cm_spec nv cnf (clause_map nv cp)) = Some d0 /\ reduction true false d0 d.
