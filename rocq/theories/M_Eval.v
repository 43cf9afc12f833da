(** Model of DdEval.hpp, DdStructure::evaluate (DdStructure.hpp 449-551) and eval/Cardinality.hpp. *)
From Verif Require Import Base Sem M_Table M_Index M_Big.
Local Open Scope nat_scope.

(** DdEval.hpp 88-: an evaluator.  [ES] is the state of the evaluator object (its members), [ET] the work
    area of a node, [ER] the result.  evalNode gets the values and levels of all children (DdValues,
    DdEval.hpp 40-68). *)
Record evaluator := Ev {
  ES : Type;
  ET : Type;
  ER : Type;
  e_init : ES -> nat -> option ES;
  e_term : ES -> nat -> option (ES * ET);
  e_node : ES -> nat -> list (ET * nat) -> option (ES * ET);
  e_destruct : ES -> nat -> option ES;
  e_value : ES -> ET -> option ER
}.

Section evaluate.
  Context (ev : evaluator).

  (** DataTable<T> work: rows of values; a slot that was resized but not yet assigned holds no value. *)
  Notation work := (list (list (option (ET ev)))).

  (** work[f.row()][f.col()] *)
  Definition wget (w : work) (f : nid) : option (ET ev) :=
    r ← w !! row f; o ← r !! col f; o.
  Definition wset (w : work) (i j : nat) (v : ET ev) : option work :=
    r ← w !! i; _ ← r !! j; Some (<[i := <[j := Some v]> r]> w).

  (** DdStructure.hpp 507-513 and 519-525: the values of one node are collected and evalNode is called *)
  Definition eval_at (t : table) (i : nat) (acc : ES ev * work) (j : nat) : option (ES ev * work) :=
    let '(e, w) := acc in
    p ← tget t (mk i j);
    vs ← mapM (fun f => v ← wget w f; Some (v, row f)) p;
    '(e', v) ← e_node ev e i vs;
    w' ← wset w i j v;
    Some (e', w').

  (** DdStructure.hpp 496, 518-526: the sequential loop over one level *)
  Definition eval_level (t : table) (i : nat) (acc : ES ev * work) : option (ES ev * work) :=
    let '(e, w) := acc in
    r ← t !! i; _ ← w !! i;
    ofor (length r) (eval_at t i) (e, <[i := replicate (length r) None]> w).

  (** DdStructure.hpp 498-516: the parallel loop over one level.  [asg j] is the thread that gets
      iteration j, [ord] the order in which the iterations happen to be executed. *)
  Definition eval_level_mp (t : table) (i : nat) (asg : nat -> nat) (ord : list nat)
      (acc : list (ES ev) * work) : option (list (ES ev) * work) :=
    let '(es, w) := acc in
    r ← t !! i; _ ← w !! i;
    ofold (fun '(es, w) j =>
             e ← es !! asg j;
             '(e', w') ← eval_at t i (e, w) j;
             Some (<[asg j := e']> es, w'))
          ord (es, <[i := replicate (length r) None]> w).

  (** DdStructure.hpp 528-532: work[*t].clear(); eval.destructLevel( *t) *)
  Definition clear_rows (L : list nat) (acc : ES ev * work) : option (ES ev * work) :=
    ofold (fun '(e, w) r => _ ← w !! r; e' ← e_destruct ev e r; Some (e', <[r := []]> w)) L acc.
  (** DdStructure.hpp 534-541 *)
  Definition destruct_all (L : list nat) (es : list (ES ev)) : option (list (ES ev)) :=
    mapM (fun e => ofold (e_destruct ev) L e) es.

  (** DdStructure.hpp 484-491: evalTerminal for every column of row 0 *)
  Definition eval_terminals (t : table) (e : ES ev) (w : work) : option (ES ev * work) :=
    r ← t !! 0; _ ← w !! 0;
    ofor (length r) (fun '(e, w) j => '(e', v) ← e_term ev e j; w' ← wset w 0 j v; Some (e', w'))
      (e, <[0 := replicate (length r) None]> w).

  (** DdStructure.hpp 454-551, sequential.  The level index is made on the first call of lowerLevels
      (NodeTable.hpp 321-324). *)
  Definition evaluate (e0 : ES ev) (d : dd) : option (ER ev) :=
    let n := row (rt d) in
    let t := tab d in
    '(_, lo) ← make_index t;
    e ← e_init ev e0 n;
    '(e, w) ← eval_terminals t e (replicate (length t) []);
    '(e, w) ← ofold (fun acc i => acc1 ← eval_level t i acc; L ← lo !! i; clear_rows L acc1)
                    (seq 1 n) (e, w);
    v ← wget w (rt d);
    e_value ev e v.

  (** DdStructure.hpp 454-551 with OpenMP: [nt] threads, each with its own copy of the evaluator, made
      before initialize is called. *)
  Definition evaluate_mp (nt : nat) (asg : nat -> nat -> nat) (ord : nat -> list nat) (e0 : ES ev) (d : dd)
    : option (ER ev) :=
    let n := row (rt d) in
    let t := tab d in
    '(_, lo) ← make_index t;
    e ← e_init ev e0 n;
    es ← mapM (fun e => e_init ev e n) (replicate nt e0);
    '(e, w) ← eval_terminals t e (replicate (length t) []);
    '(e, es, w) ← ofold (fun '(e, es, w) i =>
                     '(es1, w1) ← eval_level_mp t i (asg i) (ord i) (es, w);
                     L ← lo !! i;
                     '(e2, w2) ← clear_rows L (e, w1);
                     es2 ← destruct_all L es1;
                     Some (e2, es2, w2))
                    (seq 1 n) (e, es, w);
    v ← wget w (rt d);
    e_value ev e v.
End evaluate.

(** ** eval/Cardinality.hpp 35-86: counting with a machine integer type.  [M] is its modulus (2^64 for
    uint64_t). *)
Section card_uint.
  Context (bdd : bool) (a : nat) (M : N).
  Local Open Scope N_scope.

  (** Cardinality.hpp 47-49 *)
  Definition cu_term (j : nat) : N := if (j =? 0)%nat then 0 else 1.
  (** the loop "while (++ii < i) tmp *= ARITY" (62-64, also 77-79): k rounds *)
  Definition cu_scale (k : nat) (x : N) : N := Nat.iter k (fun x => (x * N.of_nat a) mod M) x.
  (** Cardinality.hpp 51-72 *)
  Definition cu_node (i : nat) (vs : list (N * nat)) : N :=
    fold_left (fun n x => (n + (if bdd then cu_scale (i - snd x - 1) (fst x) else fst x)) mod M) vs 0.
  (** Cardinality.hpp 74-85; the state is topLevel *)
  Definition cu_value (numVars : nat) (topLevel : nat) (n : N) : N :=
    if bdd then cu_scale (numVars - topLevel) n else n.

  Definition card_uint (numVars : nat) : evaluator :=
    Ev nat N N (fun _ n => Some n) (fun e j => Some (e, cu_term j)) (fun e i vs => Some (e, cu_node i vs))
       (fun e _ => Some e) (fun e v => Some (cu_value numVars e v)).
End card_uint.

(** ** eval/Cardinality.hpp 88-194: counting with BigNumber.
    The number of a node is an array in pool i; evaluate drops the references to it (work[i].clear()) in
    the same step in which it empties the pool (destructLevel(i)), so the array is part of the value here.
    The scratch numbers tmp1, tmp2, tmp3 are arrays with [cap] words; the code computes
    ceil(topLevel * log2(ARITY) / 63) + 1 in double precision (104).  [cap] is left open, the theorems
    assume only what they need of it and [max_words] is the exact value.  [junk] is what freshly
    allocated memory holds. *)
Record card_state := CS { cs_top : nat; tmp1 : list N; tmp2 : list N; tmp3 : list N }.

Definition max_words (a n : nat) : nat :=
  ((N.to_nat (N.log2_up (N.of_nat a ^ N.of_nat n)) + 62) / 63 + 1)%nat.

Section card_big.
  Context (bdd : bool) (a : nat) (numVars : nat) (cap : nat -> nat) (junk : nat -> N).

  Definition fresh (w : nat) : list N := map junk (seq 0 w).

  (** Cardinality.hpp 100-108 *)
  Definition cb_init (e : card_state) (n : nat) : option card_state :=
    Some (CS n (fresh (cap n)) (fresh (cap n)) (fresh (cap n))).
  (** Cardinality.hpp 110-113 *)
  Definition cb_term (e : card_state) (j : nat) : option (card_state * list N) :=
    '(v, _) ← big_store64 (fresh 1) (N.of_nat j); Some (e, v).

  (** Cardinality.hpp 128-133 (and 165-170): tmp2 is multiplied by ARITY, k times *)
  Definition cb_times (acc : list N * list N) : option (list N * list N) :=
    let '(t2, t3) := acc in
    '(t3, _) ← big_store t3 t2;
    t2 ← ofor (a - 1) (fun t2 _ => '(t2, _) ← big_add t2 t3; Some t2) t2;
    Some (t2, t3).
  (** Cardinality.hpp 123-135 (161-172): tmp2 *= ARITY^k *)
  Definition cb_scale (k : nat) (t2 t3 : list N) : option (list N * list N) :=
    if (a =? 2)%nat then '(t2, _) ← big_shiftl t2 k; Some (t2, t3)
    else ofor k (fun acc _ => cb_times acc) (t2, t3).

  (** Cardinality.hpp 115-157 *)
  Definition cb_node (e : card_state) (i : nat) (vs : list (list N * nat)) : option (card_state * list N) :=
    let n := cs_top e in
    if bdd then
      '(t1, w) ← big_store64 (tmp1 e) 0;
      '(t1, t2, t3, w) ←
        ofold (fun '(t1, t2, t3, w) x =>
                 '(t2, _) ← big_store t2 (fst x);
                 '(t2, t3) ← cb_scale (i - snd x - 1) t2 t3;
                 '(t1, w) ← big_add t1 t2;
                 Some (t1, t2, t3, w))
              vs (t1, tmp2 e, tmp3 e, w);
      '(v, _) ← big_store (fresh w) t1;
      Some (CS n t1 t2 t3, v)
    else
      '(t1, w) ← match vs with
                 | [] => big_store64 (tmp1 e) 0
                 | x :: vs => '(t1, w) ← big_store (tmp1 e) (fst x);
                              ofold (fun '(t1, _) x => big_add t1 (fst x)) vs (t1, w)
                 end;
      '(v, _) ← big_store (fresh w) t1;
      Some (CS n t1 (tmp2 e) (tmp3 e), v).

  (** Cardinality.hpp 159-181; with ARITY = 2 a negative shift count violates the assertion of
      shiftLeft, the other loop does nothing then *)
  Definition cb_value (e : card_state) (v : list N) : option (list N) :=
    if bdd then
      '(t2, _) ← big_store (tmp2 e) v;
      if (a =? 2)%nat && (numVars <? cs_top e)%nat then None else
      '(t2, _) ← cb_scale (numVars - cs_top e) t2 (tmp3 e);
      big_print t2
    else big_print v.

  Definition card_big : evaluator :=
    Ev card_state (list N) (list N) cb_init cb_term cb_node (fun e _ => Some e) cb_value.
End card_big.

(** Cardinality.hpp 94-98: the constructor (the scratch numbers are null pointers) *)
Definition card0 : card_state := CS 0 [] [] [].

(** DdStructure.hpp 445-447 *)
Definition zdd_cardinality (cap : nat -> nat) (junk : nat -> N) (d : dd) : option (list N) :=
  evaluate (card_big false (d_ar d) 0 cap junk) card0 d.
(** DdStructure.hpp 437-439 *)
Definition bdd_cardinality (numVars : nat) (cap : nat -> nat) (junk : nat -> N) (d : dd) : option (list N) :=
  evaluate (card_big true (d_ar d) numVars cap junk) card0 d.
