(** Breadth-first top-down construction: the common shape of DdBuilder (DdBuilder.hpp 174-389),
    DdBuilderMP (394-672), ZddSubsetter (678-952) and ZddSubsetterMP (958-1241).
    The four classes are instances of the definitions below (M_Builder.v, M_Subset.v):
    pending specification nodes of a level are kept in groups (one group for DdBuilder, one per
    task for DdBuilderMP, one per input node for the subsetters), and in each group one list per
    thread (a single one in the sequential classes).

    Simplifications: states are values (get_copy / destruct / the raw storage of SpecNode and the
    memory pools are not modelled here, see M_List.v and M_Pool.v); merge_states is the default one
    which always returns 0 (DdSpec.hpp 213-215), so cases 1 and 2 of the switches and oneSrcPtr do
    not occur (M_Merge.v has them). *)
From Verif Require Import Base M_Table M_Hash M_Sweeper.
Local Open Scope Z_scope.

(** srcPtr: the address the id of a node has to be stored to: &root or &output[r][c].branch[b] *)
Inductive src := SRoot | SBr (r c b : nat).

(** A pending SpecNode: level, group, owning thread, source address and state.
    All lists snodeTables[..] are kept in one list, newest first; the list of one
    (level, group, thread) is the sublist with that key (alloc_front = cons). *)
Record pnode (S : Type) := Pn { p_lv : nat; p_gr : nat; p_th : nat; p_src : src; p_st : S }.
Arguments Pn {S}. Arguments p_lv {S}. Arguments p_gr {S}. Arguments p_th {S}.
Arguments p_src {S}. Arguments p_st {S}.

Record bst (S : Type) := Bst { out : table; broot : nid; work : list (pnode S); bsw : sweeper }.
Arguments Bst {S}. Arguments out {S}. Arguments broot {S}. Arguments work {S}. Arguments bsw {S}.

(** *srcPtr(p) = f *)
Definition write_src (t : table) (root : nid) (x : src) (f : nid) : option (table * nid) :=
  match x with
  | SRoot => Some (t, f)
  | SBr r c b => t' ← tset_child t (mk r c) b f; Some (t', root)
  end.

Section engine.
  Context {S : Type} (a : nat).
  (** Hasher::operator() (DdBuilder.hpp 98-104) *)
  Context (hashf : nat -> S -> N) (eqbf : nat -> S -> S -> bool).
  (** number of threads; number of groups of a level *)
  Context (nt : nat) (ngr : nat -> nat).
  (** level code, group and state of the b-th child of a pending node; None = undefined behaviour *)
  Context (ch : nat -> nat -> S -> nat -> option (Z * nat * S)).
  (** order in which the groups of a level are expanded, and by which thread *)
  Context (sched : nat -> list (nat * nat)).
  (** ZddSubsetter does not use a hash table for lists of length 1 (DdBuilder.hpp 790, 820) *)
  Context (single : bool).

  Definition plist (l g y : nat) (w : list (pnode S)) : list (pnode S) :=
    List.filter (fun p => (p_lv p =? l)%nat && (p_gr p =? g)%nat && (p_th p =? y)%nat) w.
  (** the nodes of one group: the lists of all threads one after the other *)
  Definition pgroup (l g : nat) (w : list (pnode S)) : list (pnode S) :=
    concat (map (fun y => plist l g y w) (seq 0 nt)).

  (** ** Pass 1: give ids to the pending nodes of level i
      (DdBuilder.hpp 271-296, 528-567, 786-824, 1076-1110).
      A hash table entry is the position of the node in its group together with its state; the
      position is the identity of the pointer, the already assigned ids are in [ids] (nodeId(p) /
      code(p)); a duplicate gets id 1 ("unused").  In the MP classes the ids are first counted per
      group, and *srcPtr(p) is written in pass 2; the addresses written are different from
      everything pass 2 reads, so the model does it here for all classes. *)
  Definition pass1_step (i : nat) (acc : htable (nat * S) * list nid * nat * (table * nid)) (p : pnode S)
    : option (htable (nat * S) * list nid * nat * (table * nid)) :=
    let '(u, ids, m, tr) := acc in
    let j := length ids in
    '(u', slot) ← ht_add (fun e => hashf i (snd e)) (fun e e' => eqbf i (snd e) (snd e')) u (j, p_st p);
    e ← ht_at u' slot;
    if (fst e =? j)%nat
    then tr' ← write_src (fst tr) (snd tr) (p_src p) (mk i m);
         Some (u', ids ++ [mk i m], Datatypes.S m, tr')
    else f ← ids !! fst e;
         tr' ← write_src (fst tr) (snd tr) (p_src p) f;
         Some (u', ids ++ [n1], m, tr').

  Definition pass1_group (i : nat) (ps : list (pnode S)) (m : nat) (tr : table * nid)
    : option (list nid * nat * (table * nid)) :=
    match single, ps with
    | true, [p] =>
        tr' ← write_src (fst tr) (snd tr) (p_src p) (mk i m); Some ([mk i m], Datatypes.S m, tr')
    | _, _ =>
        r ← ofold (pass1_step i) ps (ht_init (length ps * 2), [], m, tr);
        let '(_, ids, m', tr') := r in Some (ids, m', tr')
    end.

  (** all groups, in order; the result is the list of ids of every group, the number of nodes and
      the written table *)
  Definition pass1 (i : nat) (w : list (pnode S)) (m0 : nat) (tr : table * nid)
    : option (list (list nid) * nat * (table * nid)) :=
    ofold (fun '(idss, m, tr) g =>
             '(ids, m', tr') ← pass1_group i (pgroup i g w) m tr;
             Some (idss ++ [ids], m', tr'))
          (seq 0 (ngr i)) ([], m0, tr).

  (** ** Pass 2: compute the branches (DdBuilder.hpp 308-383, 602-657, 830-923, 1129-1205) *)
  (** accumulator: table, pending nodes, lowestChild, allZero *)
  Definition pass2_branch (i g y : nat) (s : S) (jj : nat)
      (acc : table * list (pnode S) * nat * bool) (b : nat) : option (table * list (pnode S) * nat * bool) :=
    let '(t, w, low, allZero) := acc in
    '(c, g', s') ← ch i g s b;
    if c =? 0 then
      t' ← tset_child t (mk i jj) b n0; Some (t', w, low, allZero)
    else if c <? 0 then
      t' ← tset_child t (mk i jj) b n1; Some (t', w, low, false)
    else
      let ii := Z.to_nat c in
      if (ii <? i)%nat && (g' <? ngr ii)%nat       (* assert(ii < i); index into work[ii] *)
      then Some (t, Pn ii g' y (SBr i jj b) s' :: w, min low ii, false)
      else None.

  (** accumulator: table, pending nodes, lowestChild, deadCount *)
  Definition pass2_node (i g y : nat) (acc : table * list (pnode S) * nat * nat) (pf : pnode S * nid)
    : option (table * list (pnode S) * nat * nat) :=
    let '(t, w, low, dead) := acc in
    let '(p, f) := pf in
    if neqb f n1 then Some acc else                (* nodeId(p) == 1: merged into another node *)
    '(t', w', low', allZero) ← ofor a (pass2_branch i g y (p_st p) (col f)) (t, w, low, true);
    Some (t', w', low', if (allZero : bool) then Datatypes.S dead else dead).

  Definition pass2 (i : nat) (w0 : list (pnode S)) (idss : list (list nid)) (t : table)
    : option (table * list (pnode S) * nat * nat) :=
    ofold (fun acc '(g, y) =>
             ids ← idss !! g;
             ofold (pass2_node i g y) (zip (pgroup i g w0) ids) acc)
          (sched i)
          (t, List.filter (fun p => negb (p_lv p =? i)%nat) w0, (i - 1)%nat, 0%nat).

  (** ** One level (DdBuilder.hpp 258-388, 494-671, 771-929, 1048-1218) *)
  Definition construct (i : nat) (st : bst S) : option (bst S) :=
    r ← out st !! i;
    '(idss, m, tr) ← pass1 i (work st) (length r) (out st, broot st);
    r' ← fst tr !! i;
    (* output[i].resize(m) / initRow(i, m): new nodes are not initialised *)
    t1 ← set_row (fst tr) i (take m r' ++ replicate (m - length r') (junk_node a));
    '(t2, w', low, dead) ← pass2 i (work st) idss t1;
    '(sw', t3, root') ← update (bsw st) t2 (snd tr) i low dead;
    Some (Bst t3 root' w' sw').

  (** ** Initialisation for a non-terminal root of level n: n + 1 rows, one pending node whose source
      is the root reference, on thread 0 (DdBuilder.hpp 191-195, 221-225, 242-243; 461-465, 482-483;
      749-755, 759; 1027-1036, 1040); then for (i = n; i > 0; --i) construct(i)
      (DdStructure.hpp 122-128, 143-152, 183-190, 210-217). *)
  Definition init_table (n : nat) : table := terminal_row a :: replicate n [].
  Definition start (n g : nat) (s : S) : bst S := Bst (init_table n) n0 [Pn n g 0 SRoot s] sw0.
  Definition build (n g : nat) (s : S) : option (table * nid) :=
    st ← ofold (fun st i => construct i st) (reverse (seq 1 n)) (start n g s);
    Some (out st, broot st).
End engine.
