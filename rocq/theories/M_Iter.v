(** Model of DdStructure::const_iterator (DdStructure.hpp 556-653) and begin/end (655-672). *)
From Verif Require Import Base Sem M_Table.
From stdpp Require Export gmap.

(** DdStructure.hpp 578-581: cursor, path and itemset; std::set<int> is a finite set of levels.
    The iterator refers to its diagram, which is a parameter here. *)
Record iter := It { cursor : Z; path : list (nid * bool); itemset : gset nat }.

Section iter.
  Context (t : table).

  (** f > 1 (DdStructure.hpp 616): not a terminal *)
  Definition nonterminal (f : nid) : bool := (0 <? row f) || (1 <? col f).

  (** DdStructure.hpp 616-628; [k] bounds the number of steps (levels decrease) *)
  Fixpoint it_down (k : nat) (f : nid) (cur : Z) (p : list (nid * bool)) : option (nid * Z * list (nid * bool)) :=
    if nonterminal f then
      match k with
      | O => None
      | S k => b0 ← child t f 0;
               if negb (neqb b0 n0) then it_down k b0 (Z.of_nat (length p)) (p ++ [(f, false)])
               else b1 ← child t f 1; it_down k b1 cur (p ++ [(f, true)])
      end
    else Some (f, cur, p).

  (** DdStructure.hpp 632-643 with cursor = k - 1; [None] inside: the cursor ran below 0 *)
  Fixpoint it_up (k : nat) (p : list (nid * bool)) : option (option (nid * nat * list (nid * bool))) :=
    match k with
    | O => Some None
    | S c => '(g, v) ← p !! c;
             b1 ← child t g 1;
             if negb v && negb (neqb b1 n0)
             then Some (Some (b1, c, take (S c) (<[c := (g, true)]> p)))
             else it_up c p
    end.

  (** DdStructure.hpp 652-656 *)
  Definition items_of (p : list (nid * bool)) : gset nat :=
    foldl (fun s x => if snd x : bool then {[ row (fst x) ]} ∪ s else s) ∅ p.

  (** DdStructure.hpp 612-657: next(f); [fuel] bounds the number of rounds of the outer loop *)
  Fixpoint it_next (fuel : nat) (f : nid) (cur : Z) (p : list (nid * bool)) : option iter :=
    match fuel with
    | O => None
    | S n =>
        '(f, cur, p) ← it_down (S (row f)) f cur p;
        if neqb f n1 then Some (It cur p (items_of p))
        else r ← it_up (Z.to_nat (cur + 1)) p;
             match r with
             | Some (f, c, p) => it_next n f (Z.of_nat c) p
             | None => Some (It (-2) [] ∅)
             end
    end.

  (** DdStructure.hpp 584-587 and 664-672 *)
  Definition it_begin (fuel : nat) (root : nid) : option iter := it_next fuel root (-1) [].
  Definition it_end : iter := It (-2) [] ∅.
  (** DdStructure.hpp 589-592 *)
  Definition it_incr (fuel : nat) (it : iter) : option iter := it_next fuel n0 (cursor it) (path it).

  (** DdStructure.hpp 571-573, 602-604 *)
  Definition sel_eqb (x y : nid * bool) : bool := neqb (fst x) (fst y) && Bool.eqb (snd x) (snd y).
  Definition it_eqb (x y : iter) : bool :=
    (cursor x =? cursor y)%Z && (length (path x) =? length (path y)) &&
    forallb (fun z => sel_eqb (fst z) (snd z)) (zip (path x) (path y)).

  (** for (it = begin(); it != end(); ++it) use( *it): the sequence of sets seen; [m] bounds its length *)
  Fixpoint it_collect (m fuel : nat) (it : iter) : option (list (gset nat)) :=
    if it_eqb it it_end then Some [] else
    match m with
    | O => None
    | S m => it' ← it_incr fuel it; l ← it_collect m fuel it'; Some (itemset it :: l)
    end.
End iter.

(** the sets seen by iterating over the structure [d] *)
Definition dd_sets (m fuel : nat) (d : dd) : option (list (gset nat)) :=
  it ← it_begin (tab d) fuel (rt d); it_collect (tab d) m fuel it.
