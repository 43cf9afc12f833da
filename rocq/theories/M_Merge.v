(** DdBuilder (dd/DdBuilder.hpp 174-389) for specifications that define merge_states
    (DdSpec.hpp 46, 59-62; mergeStates of StateDdSpec / PodArrayDdSpec / HybridDdSpec,
    DdSpec.hpp 297-303, 435-441, 607-614), with the candidates for the 1-terminal (oneSrcPtr, one)
    and DdSweeper (dd/DdSweeper.hpp 92-167) with its update of oneSrcPtr.
    The default merge_states is the case [mrg = fun _ _ => 0]; M_Engine.v / M_Builder.v model that
    case alone.

    Simplification: merge_states only compares the two states, it does not change them.  States are
    values, as in M_Engine.v. *)
From Verif Require Import Base Sem M_Table M_Hash M_Sweeper M_Engine M_Builder.
Local Open Scope Z_scope.

(** NodeBranchId (Node.hpp 138-149) *)
Record nbi := Nb { nb_row : nat; nb_col : nat; nb_val : nat }.

(** DdSweeper.hpp 152-161: redirect the recorded branches of swept rows *)
Definition sweep_src (k : nat) (newId : list (list nid)) (osrc : list nbi) : option (list nbi) :=
  mapM (fun x => if (k <=? nb_row x)%nat
                 then r ← newId !! nb_row x; f ← r !! nb_col x; Some (Nb (row f) (col f) (nb_val x))
                 else Some x) osrc.

(** DdSweeper.hpp 118-165 *)
Definition msweep (k : nat) (t : table) (root : nid) (osrc : list nbi) : option (table * nid * list nbi) :=
  '(t', newId) ← sweep_rows k t;
  osrc' ← sweep_src k newId osrc;
  r ← newId !! row root;
  f ← r !! col root;
  Some (t', f, osrc').

(** DdSweeper.hpp 92-167 *)
Definition mupdate (sw : sweeper) (t : table) (root : nid) (osrc : list nbi) (current low count : nat)
  : option (sweeper * table * nid * list nbi) :=
  if (current <=? 1)%nat then Some (sw, t, root, osrc) else
  let '(sl0, dc0) :=
    if (length (slev sw) <=? current)%nat
    then (grow (S current) (slev sw), grow (S (S current)) (dcnt sw)) else (slev sw, dcnt sw) in
  sl ← sweep_mark (S current - low) low current sl0;
  _ ← dc0 !! current;
  let dc1 := <[current := count]> dc0 in
  r ← t !! current;
  let all := (allc sw + length r)%nat in
  k ← sl !! (current - 1)%nat;
  top ← sl !! current;
  dc ← sweep_merge (top - k) top k dc1;
  let mx := max (maxc sw) all in
  d ← dc !! k;
  if (d * 20 <? mx)%nat then Some (Sw sl dc all mx, t, root, osrc) else
  '(t', root', osrc') ← msweep k t root osrc;
  Some (Sw sl (<[k := 0%nat]> dc) (table_size t') mx, t', root', osrc').

Section merge.
  Context {S : Type} (a : nat).
  (** Hasher::operator() (DdBuilder.hpp 98-104) *)
  Context (hashf : nat -> S -> N) (eqbf : nat -> S -> S -> bool).
  (** the return code of spec.merge_states *)
  Context (mrg : S -> S -> nat).
  (** spec.get_child(state, i, b) *)
  Context (ch : nat -> S -> nat -> Z * S).

  (** ** Pass 1 (DdBuilder.hpp 271-296): accumulator as in M_Engine.pass1_step.
      nodeId(p0) is the entry of [ids] at the position stored in the hash table; [p0 = p] (line 285)
      replaces the entry of the hash table. *)
  Definition mpass1_step (i : nat) (acc : htable (nat * S) * list nid * nat * (table * nid)) (p : pnode S)
    : option (htable (nat * S) * list nid * nat * (table * nid)) :=
    let '(u, ids, m, tr) := acc in
    let j := length ids in
    '(u', slot) ← ht_add (fun e => hashf i (snd e)) (fun e e' => eqbf i (snd e) (snd e')) u (j, p_st p);
    e ← ht_at u' slot;
    if (fst e =? j)%nat
    then tr' ← write_src (fst tr) (snd tr) (p_src p) (mk i m);
         Some (u', ids ++ [mk i m], Datatypes.S m, tr')
    else
      match mrg (snd e) (p_st p) with
      | 1%nat =>
          tr' ← write_src (fst tr) (snd tr) (p_src p) (mk i m);
          u'' ← ht_modify u' slot (fun _ => (j, p_st p));
          Some (u'', <[fst e := n0]> ids ++ [mk i m], Datatypes.S m, tr')
      | 2%nat =>
          tr' ← write_src (fst tr) (snd tr) (p_src p) n0;
          Some (u', ids ++ [n1], m, tr')
      | _ =>
          f ← ids !! fst e;
          tr' ← write_src (fst tr) (snd tr) (p_src p) f;
          Some (u', ids ++ [n1], m, tr')
      end.

  (** snodeTable[l] *)
  Definition mlist (l : nat) (w : list (pnode S)) : list (pnode S) := List.filter (fun p => (p_lv p =? l)%nat) w.

  Definition mpass1 (i : nat) (ps : list (pnode S)) (m : nat) (tr : table * nid)
    : option (list nid * nat * (table * nid)) :=
    r ← ofold (mpass1_step i) ps (ht_init (length ps * 2), [], m, tr);
    let '(_, ids, m', tr') := r in Some (ids, m', tr').

  (** DdBuilder.hpp 341-346: while (!oneSrcPtr.empty()) output[..][..].branch[..] = 0 *)
  Definition zero_ones (osrc : list nbi) (t : table) : option table :=
    ofold (fun t x => tset_child t (mk (nb_row x) (nb_col x)) (nb_val x) n0) osrc t.

  (** ** Pass 2 (DdBuilder.hpp 308-383) *)
  (** one branch (319-377); accumulator: table, pending nodes, lowestChild, allZero, the state [one]
      and oneSrcPtr (newest first) *)
  Definition mpass2_branch (i : nat) (s : S) (jj : nat)
      (acc : table * list (pnode S) * nat * bool * (option S * list nbi)) (b : nat)
      : option (table * list (pnode S) * nat * bool * (option S * list nbi)) :=
    let '(t, w, low, allZero, (one, osrc)) := acc in
    let '(c, s') := ch i s b in
    if c =? 0 then
      t' ← tset_child t (mk i jj) b n0; Some (t', w, low, allZero, (one, osrc))
    else if c <? 0 then
      match osrc with
      | [] =>                                                   (* 333-337 *)
          t' ← tset_child t (mk i jj) b n1; Some (t', w, low, false, (Some s', [Nb i jj b]))
      | _ :: _ =>
          o ← one;
          match mrg o s' with
          | 1%nat =>                                            (* 340-351 *)
              t' ← zero_ones osrc t;
              t'' ← tset_child t' (mk i jj) b n1;
              Some (t'', w, low, false, (Some s', [Nb i jj b]))
          | 2%nat =>                                            (* 352-354 *)
              t' ← tset_child t (mk i jj) b n0; Some (t', w, low, false, (one, osrc))
          | _ =>                                                (* 355-358 *)
              t' ← tset_child t (mk i jj) b n1; Some (t', w, low, false, (one, Nb i jj b :: osrc))
          end
      end
    else
      let ii := Z.to_nat c in
      if (ii <? i)%nat                                          (* assert(ii < i) *)
      then Some (t, Pn ii 0 0 (SBr i jj b) s' :: w, min low ii, false, (one, osrc))
      else None.

  (** one pending node (308-383); accumulator: table, pending nodes, lowestChild, deadCount, jj, ones.
      The test nodeId(p) == 0 (line 320) is taken out of the loop over the branches. *)
  Definition mpass2_node (i : nat)
      (acc : table * list (pnode S) * nat * nat * nat * (option S * list nbi)) (pf : pnode S * nid)
      : option (table * list (pnode S) * nat * nat * nat * (option S * list nbi)) :=
    let '(t, w, low, dead, jj, ones) := acc in
    let '(p, f) := pf in
    if neqb f n1 then Some acc
    else if neqb f n0 then
      t' ← ofor a (fun t b => tset_child t (mk i jj) b n0) t;
      Some (t', w, low, Datatypes.S dead, Datatypes.S jj, ones)
    else
      '(t', w', low', allZero, ones') ← ofor a (mpass2_branch i (p_st p) jj) (t, w, low, true, ones);
      Some (t', w', low', if (allZero : bool) then Datatypes.S dead else dead, Datatypes.S jj, ones').

  Definition mpass2 (i : nat) (ps : list (pnode S)) (ids : list nid) (j0 : nat) (t : table) (w : list (pnode S))
      (ones : option S * list nbi) :=
    ofold (mpass2_node i) (zip ps ids) (t, w, (i - 1)%nat, 0%nat, j0, ones).

  (** the builder: output, *root, snodeTable, sweeper, one, oneSrcPtr *)
  Record mst := Mst { mout : table; mroot : nid; mwork : list (pnode S); msw : sweeper;
                      mone : option S; mosrc : list nbi }.

  (** DdBuilder.hpp 258-388 *)
  Definition mconstruct (i : nat) (st : mst) : option mst :=
    r ← mout st !! i;
    let ps := mlist i (mwork st) in
    '(ids, m, tr) ← mpass1 i ps (length r) (mout st, mroot st);
    r' ← fst tr !! i;
    (* output[i].resize(m): new nodes are not initialised *)
    t1 ← set_row (fst tr) i (take m r' ++ replicate (m - length r') (junk_node a));
    '(t2, w', low, dead, _, (one', osrc')) ←
      mpass2 i ps ids (length r) t1 (List.filter (fun p => negb (p_lv p =? i)%nat) (mwork st)) (mone st, mosrc st);
    '(sw', t3, root', osrc'') ← mupdate (msw st) t2 (snd tr) osrc' i low dead;
    Some (Mst t3 root' w' sw' one' osrc'').

  (** DdBuilder.hpp 191-195, 221-225, 231-252; DdStructure.hpp 122-128 *)
  Definition mstart (n : nat) (s : S) : mst := Mst (init_table a n) n0 [Pn n 0 0 SRoot s] sw0 None [].
  Definition mbuild (n : nat) (s : S) : option (table * nid) :=
    st ← ofold (fun st i => mconstruct i st) (reverse (seq 1 n)) (mstart n s);
    Some (mout st, mroot st).
End merge.

(** DdStructure(spec) (DdStructure.hpp 104-134) for a specification with merge_states [mrg] *)
Definition construct_merge (sp : spec) (mrg : St sp -> St sp -> nat) : option dd :=
  let '(c, s) := get_root sp in
  if c <=? 0 then Some (Dd (ar sp) (init_table (ar sp) 0) (if c =? 0 then n0 else n1))
  else '(t, root) ← mbuild (ar sp) (sp_hash sp) (sp_eqb sp) mrg
                      (fun i s b => get_child sp s (Z.of_nat i) b) (Z.to_nat c) s;
       Some (Dd (ar sp) t root).
