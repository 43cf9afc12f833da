(** dd/PathCounter.hpp: count (99-204), countFast (206-303), count64 (305-424).
    The three functions are written over an abstract number representation, because count and count64 have the same
    text up to the operations on numbers: for count/countFast the numbers are BigNumber word arrays (M_Big.v) and an
    access outside the storage allocated for them is [None]; for count64 they are uint64_t.
    States are values (copies, destructors and the memory pools do not appear); merge_states is not used by the class.
    [pools] is never used for allocation and is not modelled.  Progress messages are not modelled. *)
From Verif Require Import Base Sem M_Hash M_Big.
Local Open Scope nat_scope.

Section pc.
Context (sp : spec) {NT : Type}.
(** allocation of [cap] words followed by number(q).store(number(p)) *)
Context (n_copy : nat -> NT -> option NT).
(** number(q).add(number(p)): the new number and the number of words *)
Context (n_add : NT -> NT -> option (NT * nat)).
(** number(p) == 0; number(p).store(0) *)
Context (n_isz : NT -> option bool) (n_clear : NT -> option NT).

(** A level: vnodeTable[j] in the order of allocation (the list front is the last element), and uniqTable[j], whose
    entries are pointers to nodes, here their positions, compared by the states they point to. *)
Definition plevel : Type := list (St sp * NT) * htable (nat * St sp).
Definition pc_add (j : nat) : htable (nat * St sp) -> nat * St sp -> option (htable (nat * St sp) * nat) :=
  ht_add (fun e => hash_code sp (Z.of_nat j) (snd e)) (fun e e' => equal_to sp (Z.of_nat j) (snd e) (snd e')).

(** alloc_front + uniqTable[ii].add (152-171, 173-191); the scratch node pp is allocated when it is filled *)
Definition pc_put (cap : nat) (lv : list plevel) (nw ii : nat) (s : St sp) (x : NT) : option (list plevel * nat) :=
  '(vs, u) ← lv !! ii;
  let id := length vs in
  '(u', slot) ← pc_add ii u (id, s);
  e ← ht_at u' slot;
  if fst e =? id
  then x' ← n_copy cap x; Some (<[ii := (vs ++ [(s, x')], u')]> lv, nw)
  else '(s0, y) ← vs !! fst e;
       '(y', w) ← n_add y x;
       Some (<[ii := (<[fst e := (s0, y')]> vs, u')]> lv, Nat.max nw w).

(** one branch (141-192): nw0 is numberWords at the beginning of the level *)
Definition pc_branch (i nw0 : nat) (s : St sp) (x : NT) (acc : list plevel * nat * NT) (b : nat)
  : option (list plevel * nat * NT) :=
  let '(lv, nw, total) := acc in
  let '(c, s') := get_child sp s (Z.of_nat i) b in
  if (c <=? 0)%Z
  then if (c =? 0)%Z then Some acc else '(t', _) ← n_add total x; Some (lv, nw, t')
  else let ii := Z.to_nat c in
       if ii <? i then
         '(lv', nw') ← pc_put (nw0 + 1 + (if ii <? i - 1 then (i - ii) / 63 else 0)) lv nw ii s' x;
         Some (lv', nw', total)
       else None.

(** one node (133-196) *)
Definition pc_node (i nw0 : nat) (acc : list plevel * nat * NT) (v : St sp * NT) : option (list plevel * nat * NT) :=
  z ← n_isz (snd v);
  if (z : bool) then Some acc else ofor (ar sp) (pc_branch i nw0 (fst v) (snd v)) acc.

(** one level (121-201): the nodes from the front of the list; then the list is empty and uniqTable[i-1] is cleared *)
Definition pc_level (acc : list plevel * nat * NT) (i : nat) : option (list plevel * nat * NT) :=
  let '(lv, nw, total) := acc in
  '(vs, u) ← lv !! i;
  '(lv', nw', total') ← ofold (pc_node i nw) (reverse vs) (lv, nw, total);
  '(vs', _) ← lv' !! (i - 1);
  Some (<[i - 1 := (vs', ht_empty)]> (<[i := ([], u)]> lv'), nw', total').

(** the loop over the levels; [one] and [zero] are the initial numbers *)
Definition pc_run (n : nat) (s : St sp) (one zero : NT) : option NT :=
  '(_, _, total) ← ofold pc_level (reverse (seq 1 n))
     (<[n := ([(s, one)], ht_empty)]> (replicate (S n) ([], ht_empty)), 1, zero);
  Some total.

(** ** countFast: no sharing when nodes are made, duplicates of a level are removed when it is processed *)
Definition pcf_branch (i nw0 : nat) (s : St sp) (x : NT) (acc : list (list (St sp * NT)) * NT) (b : nat)
  : option (list (list (St sp * NT)) * NT) :=
  let '(lv, total) := acc in
  let '(c, s') := get_child sp s (Z.of_nat i) b in
  if (c <=? 0)%Z
  then if (c =? 0)%Z then Some acc else '(t', _) ← n_add total x; Some (lv, t')
  else let ii := Z.to_nat c in
       if ii <? i then
         vs ← lv !! ii;
         x' ← n_copy (nw0 + 1 + (if ii <? i - 1 then (i - ii) / 63 else 0)) x;
         Some (<[ii := vs ++ [(s', x')]]> lv, total)
       else None.
Definition pcf_node (i nw0 : nat) (acc : list (list (St sp * NT)) * NT) (v : St sp * NT) : option (list (list (St sp * NT)) * NT) :=
  z ← n_isz (snd v);
  if (z : bool) then Some acc else ofor (ar sp) (pcf_branch i nw0 (fst v) (snd v)) acc.
(** the merging loop (235-255): positions from the front (last) to the back (first) *)
Definition pcf_merge (i : nat) (acc : list (St sp * NT) * htable (nat * St sp) * nat) (k : nat)
  : option (list (St sp * NT) * htable (nat * St sp) * nat) :=
  let '(vs, u, nw) := acc in
  '(s, x) ← vs !! k;
  '(u', slot) ← pc_add i u (k, s);
  e ← ht_at u' slot;
  if fst e =? k then Some (vs, u', nw)
  else '(s0, y) ← vs !! fst e;
       '(y', w) ← n_add y x;
       x' ← n_clear x;
       Some (<[k := (s, x')]> (<[fst e := (s0, y')]> vs), u', Nat.max nw w).
Definition pcf_level (acc : list (list (St sp * NT)) * nat * NT) (i : nat) : option (list (list (St sp * NT)) * nat * NT) :=
  let '(lv, nw, total) := acc in
  vs0 ← lv !! i;
  '(vs, _, nw') ← ofold (pcf_merge i) (reverse (seq 0 (length vs0))) (vs0, ht_init (length vs0), nw);
  '(lv', total') ← ofold (pcf_node i nw') (reverse vs) (lv, total);
  Some (<[i := []]> lv', nw', total').
Definition pcf_run (n : nat) (s : St sp) (one zero : NT) : option NT :=
  '(_, _, total) ← ofold pcf_level (reverse (seq 1 n)) (<[n := [(s, one)]]> (replicate (S n) []), 1, zero);
  Some total.
End pc.

(** ** The instances.  [slack] extra words in every allocation: the code has slack = 0; other values are used to show
    what goes wrong without them. *)
Section big.
Context (slack : nat).
(** fresh words have arbitrary contents, here 0: store does not read them *)
Definition bn_copy (cap : nat) (x : list N) : option (list N) := fst <$> big_store (replicate (cap + slack) 0%N) x.
Definition bn_isz (x : list N) : option bool := big_eqb64 x 0.
Definition bn_clear (x : list N) : option (list N) := fst <$> big_store64 x 0.
Definition bn_one : option (list N) := fst <$> big_store64 (replicate (1 + slack) 0%N) 1.
(** totalStorage has n / 63 + 1 words (110-112) *)
Definition bn_total (n : nat) : option (list N) := fst <$> big_store64 (replicate (n / 63 + 1 + slack) 0%N) 0.

(** std::string count() / countFast(): the digits *)
Definition pc_big (runner : nat -> list N -> list N -> option (list N)) (c : Z) : option (list N) :=
  if (c <=? 0)%Z then Some (if (c =? 0)%Z then [0%N] else [1%N]) else
  let n := Z.to_nat c in
  one ← bn_one; zero ← bn_total n; total ← runner n one zero; big_print total.
Definition count_slack (sp : spec) : option (list N) :=
  pc_big (fun n => pc_run sp bn_copy big_add bn_isz n (snd (get_root sp))) (fst (get_root sp)).
Definition count_fast_slack (sp : spec) : option (list N) :=
  pc_big (fun n => pcf_run sp bn_copy big_add bn_isz bn_clear n (snd (get_root sp))) (fst (get_root sp)).
End big.
Definition count : spec -> option (list N) := count_slack 0.
Definition count_fast : spec -> option (list N) := count_fast_slack 0.

(** uint64_t count64() *)
Definition count64 (sp : spec) : option N :=
  let '(c, s) := get_root sp in
  if (c <=? 0)%Z then Some (if (c =? 0)%Z then 0%N else 1%N) else
  pc_run sp (fun _ x => Some x) (fun y x => Some (u64 (y + x), 1)) (fun x => Some (x =? 0)%N) (Z.to_nat c) s 1%N 0%N.
