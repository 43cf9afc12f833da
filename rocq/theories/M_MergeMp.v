(** DdBuilderMP (dd/DdBuilder.hpp 394-672) for specifications that define merge_states.
    M_Engine.v / M_Builder.v model the class for the default merge_states. *)
From Verif Require Import Base Sem M_Table M_Hash M_Sweeper M_Engine M_Builder.
Local Open Scope Z_scope.

Section mergemp.
  Context {S : Type} (a : nat).
  Context (hashf : nat -> S -> N) (eqbf : nat -> S -> S -> bool) (mrg : S -> S -> nat).
  (** number of threads; number of tasks; the rest as in M_Engine.v *)
  Context (nt tasks : nat) (ch : nat -> nat -> S -> nat -> option (Z * nat * S)) (sched : nat -> list (nat * nat)).

  (** Pass 1 of one task (DdBuilder.hpp 541-563): hash table, code(p) of the nodes so far, j *)
  Definition xpass1_step (i : nat) (acc : htable (nat * S) * list Z * nat) (p : pnode S)
    : option (htable (nat * S) * list Z * nat) :=
    let '(u, codes, j) := acc in
    let k := length codes in
    '(u', slot) ← ht_add (fun e => hashf i (snd e)) (fun e e' => eqbf i (snd e) (snd e')) u (k, p_st p);
    e ← ht_at u' slot;
    if (fst e =? k)%nat then Some (u', codes ++ [Z.of_nat (Datatypes.S j)], Datatypes.S j)
    else match mrg (snd e) (p_st p) with
         | 1%nat => u'' ← ht_modify u' slot (fun _ => (k, p_st p));
                    Some (u'', <[fst e := 0]> codes ++ [Z.of_nat (Datatypes.S j)], Datatypes.S j)
         | 2%nat => Some (u', codes ++ [0], j)
         | _ => c ← codes !! fst e; Some (u', codes ++ [- c], j)
         end.
  Definition xpass1_task (i : nat) (ps : list (pnode S)) : option (list Z * nat) :=
    '(_, codes, j) ← ofold (xpass1_step i) ps (ht_init (length ps * 2), [], 0%nat);
    Some (codes, j).

  (** all tasks (524-576) and the prefix sums nodeColumn (589-594): for every task its first column and its codes *)
  Definition xpass1 (i : nat) (w : list (pnode S)) (m0 : nat) : option (list (nat * list Z) * nat) :=
    ofold (fun '(res, m) x =>
             '(codes, j) ← xpass1_task i (pgroup nt i x w);
             Some (res ++ [(m, codes)], (m + j)%nat)) (seq 0 tasks) ([], m0).

  (** Pass 2, one pending node (609-656); [m] is the first column of the task *)
  Definition xpass2_node (i x y m : nat) (acc : table * nid * list (pnode S) * nat * nat) (pc : pnode S * Z)
    : option (table * nid * list (pnode S) * nat * nat) :=
    let '(t, root, w, low, dead) := acc in
    let '(p, c) := pc in
    if c <=? 0
    then '(t', root') ← write_src t root (p_src p) (if c =? 0 then n0 else mk i (m + Z.to_nat (- c) - 1));
         Some (t', root', w, low, dead)
    else
      let jj := (m + Z.to_nat c - 1)%nat in
      '(t', root') ← write_src t root (p_src p) (mk i jj);
      '(t'', w', low', allZero) ← ofor a (pass2_branch (fun _ => tasks) ch i x y (p_st p) jj) (t', w, low, true);
      Some (t'', root', w', low', if (allZero : bool) then Datatypes.S dead else dead).

  Definition xpass2 (i : nat) (w0 : list (pnode S)) (res : list (nat * list Z)) (t : table) (root : nid) :=
    ofold (fun acc '(x, y) =>
             '(m, codes) ← res !! x;
             ofold (xpass2_node i x y m) (zip (pgroup nt i x w0) codes) acc)
          (sched i)
          (t, root, List.filter (fun p => negb (p_lv p =? i)%nat) w0, (i - 1)%nat, 0%nat).

  (** DdBuilder.hpp 494-671 *)
  Definition xconstruct (i : nat) (st : bst S) : option (bst S) :=
    r ← out st !! i;
    '(res, m) ← xpass1 i (work st) (length r);
    (* initRow(i, m): new nodes are not initialised *)
    t1 ← set_row (out st) i (take m r ++ replicate (m - length r) (junk_node a));
    '(t2, root', w', low, dead) ← xpass2 i (work st) res t1 (broot st);
    '(sw', t3, root'') ← update (bsw st) t2 root' i low dead;
    Some (Bst t3 root'' w' sw').

  Definition xbuild (n : nat) (s : S) : option (table * nid) :=
    st ← ofold (fun st i => xconstruct i st) (reverse (seq 1 n)) (start a n 0 s);
    Some (out st, broot st).
End mergemp.

(** DdStructure(spec, true) (DdStructure.hpp 136-155) for a specification with merge_states [mrg] *)
Definition construct_merge_mp (sp : spec) (mrg : St sp -> St sp -> nat) (threads tasks : nat)
    (sched : nat -> list (nat * nat)) : option dd :=
  let '(c, s) := get_root sp in
  if c <=? 0 then Some (Dd (ar sp) (init_table (ar sp) 0) (if c =? 0 then n0 else n1))
  else '(t, root) ← xbuild (ar sp) (sp_hash sp) (sp_eqb sp) mrg threads tasks (mp_child sp tasks) sched (Z.to_nat c) s;
       Some (Dd (ar sp) t root).

(** without OpenMP: threads(1), tasks(1) (DdBuilder.hpp 433-435) *)
Definition sched1 (i : nat) : list (nat * nat) := [(0%nat, 0%nat)].
