(** apps/cnfbdd with the option -c (with or without -s, -n, -b, -limit): the specification CnfToBdd, without the map to canonical
    clauses, and the program. *)
From stdpp Require Import gmap sorting.
From Verif Require Import Base Sem M_Table M_Engine M_Builder M_Eval Props_Reduce S_Api M_Cnf.
Local Open Scope Z_scope.

(** ** reading *)
(** readDimacs (CnfToBdd.cpp 29-78) is the same code as in cnf2ztdd2bdd: [read_dimacs] of M_Cnf.v.
    ClauseCmpForOrdering (CnfToBdd.hpp 173-187) *)
Fixpoint ordering_cmp (a b : list Z) : bool :=
  match a, b with
  | x :: a', y :: b' => if negb (Z.abs x =? Z.abs y) then Z.abs x <? Z.abs y else ordering_cmp a' b'
  | _, _ => (length a <? length b)%nat
  end.
(** load (CnfToBdd.hpp 146-150) without prepare; sortClauses (CnfToBdd.cpp 80-87).  Clauses with the same variables are equal for
    the comparison, so std::sort may give any of several orders: a relation. *)
Definition cb_load (sort : bool) (nv nc : nat) (numbers : list Z) (junk : Z) (cnf : list (list Z)) : Prop :=
  exists cnf0, read_dimacs nv nc numbers junk = Some cnf0 /\
    if sort then exists p, p ≡ₚ cnf0 /\ StronglySorted (fun a b => ordering_cmp b a = false) p /\ cnf = std_unique (fun a b => bool_decide (a = b)) p
    else cnf = cnf0.

(** ** the nodes of CUDD *)
(** A node of CUDD with the variables below it: an index, a then and an else branch.  Complemented edges are pushed down: Cudd_NotCond(Cudd_T(g),
    Cudd_IsComplement(g)) is the then branch of the function that g stands for.  Every new variable is put on top (Cudd.hpp 58-66), so the indices
    decrease from the root. *)
Inductive cdd := CC (b : bool) | CN (i : Z) (t e : cdd).
Fixpoint cden (g : cdd) (a : Z -> bool) : bool := match g with CC b => b | CN i t e => if a i then cden t a else cden e a end.
Fixpoint cordered (above : Z) (g : cdd) : Prop := match g with CC _ => True | CN i t e => i < above /\ cordered i t /\ cordered i e end.
(** Boolean functions of the clause variables, and what the operations of Cudd.hpp compute: the conjunction of variables or of negated variables
    ([all_are]), cofactor (234-236; Cudd_bddConstrain with a cube replaces its variables by constants), abstract (224-227) *)
Definition cfun : Type := (Z -> bool) -> bool.
Definition all_are (b : bool) (vs : list Z) : cfun := fun a => forallb (fun v => Bool.eqb (a v) b) vs.
Definition cput (a : Z -> bool) (vs : list Z) (b : bool) : Z -> bool := fun j => if bool_decide (j ∈ vs) then b else a j.
Definition cofactor (f : cfun) (vs : list Z) (b : bool) : cfun := fun a => f (cput a vs b).
Fixpoint abstract (f : cfun) (vs : list Z) : cfun :=
  match vs with [] => f | v :: vs' => fun a => abstract f vs' (cput a [v] true) || abstract f vs' (cput a [v] false) end.

(** ** prepare (CnfToBdd.cpp 89-177): the lists of clause numbers; a cube or constraint is given by its list and a sign *)
Fixpoint numbered_from (j : Z) (cnf : list (list Z)) : list (Z * list Z) :=
  match cnf with [] => [] | c :: cnf' => (j, c) :: numbered_from (j + 1) cnf' end.
Section spec.
  Context (nv : nat) (cnf : list (list Z)).
  (** the loop over the clauses (122-156) seen from one level: what it appends to a list *)
  Definition collect (g : list Z -> nat) : list Z := flat_map (fun p => repeat (fst p) (g (snd p))) (numbered_from 1 cnf).
  (** enterLevel (124): c[0] exists, because readDimacs stores no empty clause *)
  Definition enter_level (c : list Z) : Z := Z.of_nat nv - Z.abs (hd 0 c) + 1.
  (** posiClauses, negaClauses (128-139), enterClauses (141) *)
  Definition posi (level : Z) : list Z := collect (fun c => length (List.filter (fun t => (0 <? t) && (Z.of_nat nv - t + 1 =? level)) c)).
  Definition nega (level : Z) : list Z := collect (fun c => length (List.filter (fun t => negb (0 <? t) && (Z.of_nat nv + t + 1 =? level)) c)).
  Definition enter (level : Z) : list Z := collect (fun c => if enter_level c =? level then 1%nat else 0%nat).
  (** leaveLevel (125), leaveClauses (145) *)
  Definition leave_level (c : list Z) : Z := Z.of_nat nv - Z.abs (List.last c 0) + 1.
  Definition leave (level : Z) : list Z := collect (fun c => if leave_level c =? level then 1%nat else 0%nat).
  (** completingLevel (110, 155) *)
  Definition completing : Z := foldl (fun m c => Z.min m (enter_level c - 1)) (Z.of_nat nv) cnf.

  (** ** traverse (CnfToBdd.cpp 215-304) *)
  (** traverseTD (225-269): frontierSet[nv - k].  [cut i]: the variables that the loop 249-258 abstracts at level i to get below the limit, any
      list. *)
  Fixpoint down (cut : Z -> list Z) (k : nat) : cfun :=
    match k with
    | O => fun _ => true
    | S k' =>
        let i := Z.of_nat nv - Z.of_nat k in
        let f0 := down cut k' in
        let f1 := if i + 2 <=? Z.of_nat nv then cofactor f0 (leave (i + 2)) false else f0 in
        let f a := f1 a && all_are true (enter (i + 1)) a in
        let p a := abstract f (posi (i + 1)) a && (all_are false (posi (i + 1)) a && all_are false (leave (i + 1)) a) in
        let q a := abstract f (nega (i + 1)) a && (all_are false (nega (i + 1)) a && all_are false (leave (i + 1)) a) in
        abstract (fun a => p a || q a) (cut i)
    end.
  (** traverseBU (271-304): frontierSet[i]; [td]: frontierSet before it *)
  Fixpoint up (td : nat -> cfun) (i : nat) : cfun :=
    match i with
    | O => all_are false (leave 1)
    | S i' =>
        let f := up td i' in
        let l := Z.of_nat i in
        let half sat a := cofactor (cofactor f sat false) (enter l) true a && (if l <? Z.of_nat nv then all_are false (leave (l + 1)) a else true) in
        fun a => td i a && (half (posi l) a || half (nega l) a)
    end.
  (** frontierSet after run (cnfbdd.cpp 98): with -n 1 at every level, with -b or a limit below 2 the bottom-up traversal only, otherwise both *)
  Inductive analysis := ANone | AUp | ADownUp (cut : Z -> list Z).
  Definition frontier (m : analysis) (i : nat) : cfun :=
    match m with
    | ANone => fun _ => true
    | AUp => up (fun _ _ => true) i
    | ADownUp cut => up (fun i => down cut (nv - i)) i
    end.
  (** CUDD keeps an ordered diagram of each of these functions. *)
  Definition diagrams (m : analysis) (T : Z -> cdd) : Prop :=
    forall i, (i <= nv)%nat -> (exists above, cordered above (T (Z.of_nat i))) /\ forall a, cden (T (Z.of_nat i)) a = frontier m i a.

  (** badState (463-488).  The list is the rest of the clauses from t on, from the last to the first.  While *t is above the index t advances; [None]:
      it reads the element in front of the first one.  If t is at the end when a round begins, the loop 484-486 walks to a terminal and
      the last line compares it with the null pointer: false. *)
  Fixpoint skip_above (i : Z) (ts : list Z) : option (list Z) :=
    match ts with [] => None | x :: ts' => if i <? x then skip_above i ts' else Some ts end.
  Fixpoint bad_state (g : cdd) (ts : list Z) : option bool :=
    match g with
    | CC b => Some (negb b)
    | CN i t e =>
        match ts with
        | [] => Some false
        | _ => ts1 ← skip_above i ts;
               match ts1 with
               | [] => None
               | x :: ts' => if x =? i then bad_state t ts' else bad_state e ts1
               end
        end
    end.

  (** ** getChild (CnfToBdd.cpp 402-461) *)
  (** work is a std::vector<uint16_t> (CnfToBdd.hpp 83) *)
  Definition to_work (x : Z) : Z := x mod 65536.
  (** while (c != cz && *c < x) ++c (421-423, 433-435) *)
  Fixpoint skip (c : list Z) (x : Z) : list Z :=
    match c with [] => [] | y :: c' => if y <? x then skip c' x else c end.
  (** the rest of a branch: skips x and the element of c, or stores x (424-429, 436-441) *)
  Definition keep_or_drop (c : list Z) (x : Z) : bool * list Z :=
    match c with y :: c' => if y =? x then (false, c') else (true, c) | [] => (true, c) end.
  (** the loop (418-447): compute {a} + {b} - {c}.  Every round consumes an element of a or b, so length a + length b
      rounds suffice. *)
  Fixpoint merge (fuel : nat) (a b c : list Z) : list Z :=
    match fuel with
    | O => []
    | S f =>
        let step x a' b' :=
          let '(kept, c') := keep_or_drop (skip c x) x in
          (if kept then [to_work x] else []) ++ merge f a' b' c' in
        match a, b with
        | [], [] => []
        | x :: a', [] => step x a' []
        | [], y :: b' => step y [] b'
        | x :: a', y :: b' => if x <? y then step x a' b else step y (if x =? y then a' else a) b'
        end
    end.
  (** ClauseSet::newInstance(pool, work) (MySet.hpp 571-579): the elements are added one by one to a sorted set.  MySmallSet::add
      (339-355) removes nothing and keeps the set sorted; Props_Set.v has the array. *)
  Fixpoint set_add (s : list Z) (e : Z) : list Z :=
    match s with [] => [e] | x :: s' => if e <? x then e :: s else if e =? x then s else x :: set_add s' e end.
  Definition new_set (work : list Z) : list Z := foldl set_add [] work.
  (** getChild.  T is frontierSet.  With -c s.id is s.set. *)
  Definition cb_work (s : list Z) (level : Z) (take : nat) : list Z :=
    let ent := enter level in
    let sat := match take with O => nega level | _ => posi level end in
    merge (length s + length ent) s ent sat.
  Definition cb_child (T : Z -> cdd) (s : list Z) (level : Z) (take : nat) : option (Z * list Z) :=
    let work := cb_work s level take in
    let level' := level - 1 in
    bad ← bad_state (T level') (reverse work);
    if (bad : bool) then Some (0, s)
    else if (level' <=? completing) && bool_decide (work = []) then Some (-1, s)
    else Some (level', new_set work).
  (** getRoot (395-400), hashCode and equalTo (CnfToBdd.hpp 260-266; MySet.hpp 507-526) *)
  Definition cb_root : Z * list Z := if (nv =? 0)%nat then (0, []) else (Z.of_nat nv, []).
  Definition cb_hash (s : list Z) : N := foldl (fun h x => (h * 271828171 + Z.to_N (x mod 2 ^ 64) * 314159257) mod 2 ^ 64)%N 0%N s.
  Definition cb_spec (T : Z -> cdd) : spec :=
    {| St := list Z; ar := 2;
       get_root := cb_root;
       get_child := fun s l b => default (0, s) (cb_child T s l b);
       equal_to := fun _ s o => bool_decide (s = o);
       hash_code := fun _ s => cb_hash s |}.
End spec.

(** ** run (cnfbdd.cpp 80-120) *)
(** no state that occurs makes badState read outside *)
Definition inside (nv : nat) (cnf : list (list Z)) (T : Z -> cdd) : Prop :=
  forall l s b, reach (cb_spec nv cnf T) l s -> (b < 2)%nat -> is_Some (cb_child nv cnf T s l b).
(** the diagram after bddReduce, if nothing is read outside.  The option -p is not modelled. *)
Definition cnfbdd (sort : bool) (m : analysis) (nv nc : nat) (numbers : list Z) (junk : Z) (d : dd) : Prop :=
  exists cnf T d0, cb_load sort nv nc numbers junk cnf /\ diagrams nv cnf m T /\ inside nv cnf T /\ construct_dd (cb_spec nv cnf T) = Some d0 /\ reduction true false d0 d.
(** output (cnfbdd.cpp 70-78): the line for one set, as the list of the signed numbers *)
Definition cb_line (nv : nat) (S : gset nat) : list Z :=
  map (fun i => let x := Z.of_nat i in if bool_decide (Z.to_nat (Z.of_nat nv - x + 1) ∈ S) then x else - x) (seq 1 nv).
