(** Lifetimes of the state objects: the memory of the states is explicit here, and so are
    construction, copy construction and destruction.
    Models get_root / get_child / get_copy / destruct of DdSpec.hpp (197-230, 252-345, 413-444,
    567-617), op/BinaryOperation.hpp, op/Lookahead.hpp, op/Unreduction.hpp, and DdBuilder
    (dd/DdBuilder.hpp 174-389) with the memory of its pending nodes (MyList<SpecNode>), of tmpState
    and of oneStorage.

    An operation gives [None] when it
    - reads, copies, changes or destructs a state that is not constructed (or not any more),
    - constructs a state where one still lives (the old one is lost),
    - uses memory that has been released, or
    - releases memory in which a state still lives (a leak). *)
From stdpp Require Import gmap.
From Verif Require Import Base Sem M_Table M_Hash M_Sweeper M_Engine M_Builder M_Merge M_Ops.
Local Open Scope Z_scope.

(** ** Specifications with explicit state memory *)
(** The four operations that create, change and destroy a state at an address (DdSpec.hpp 41-62), as
    functions on the contents of the memory block there.  [l_rawb]: no object that needs destruction
    lives in the block.  [l_val]: the value of the state when all of it is constructed.
    Simplification: hash_code, equal_to and merge_states are functions of [l_val] and so demand that
    all of the state is constructed. *)
Record lspec (S : Type) := LSpec {
  l_T : Type;
  l_init : l_T;
  l_rawb : l_T -> bool;
  l_val : l_T -> option S;
  l_root : l_T -> option (Z * l_T);                    (* int get_root(void* p) *)
  l_child : l_T -> Z -> nat -> option (Z * l_T);       (* int get_child(void* p, int level, int value) *)
  l_copy : l_T -> l_T -> option l_T;                   (* void get_copy(void* to, void const* from) *)
  l_destruct : l_T -> option l_T                       (* void destruct(void* p) *)
}.
Arguments l_T {S}. Arguments l_init {S}. Arguments l_rawb {S}. Arguments l_val {S}. Arguments l_root {S}.
Arguments l_child {S}. Arguments l_copy {S}. Arguments l_destruct {S}.

Definition isn {A} (x : option A) : bool := match x with None => true | Some _ => false end.

Section base.
  Context (sp : spec).

  (** DdSpec<S,T,AR> (DdSpec.hpp 252-307): new (p) State(), new (p) State(s), ~State(); the block holds
      [Some s] while a State object with value s lives in it. *)
  Definition ls_state : lspec (St sp) := LSpec (St sp) (option (St sp)) None isn (fun m => m)
    (fun m => if isn m then Some (fst (get_root sp), Some (snd (get_root sp))) else None)
    (fun m l b => s ← m; let '(c, s') := get_child sp s l b in Some (c, Some s'))
    (fun to from => s ← from; if isn to then Some (Some s) else None)
    (fun m => _ ← m; Some None).

  (** PodArrayDdSpec (DdSpec.hpp 413-444): plain words, nothing to construct or destruct; the block
      holds [Some a] once the array has been written. *)
  Definition ls_pod : lspec (St sp) := LSpec (St sp) (option (St sp)) None (fun _ => true) (fun m => m)
    (fun _ => Some (fst (get_root sp), Some (snd (get_root sp))))
    (fun m l b => s ← m; let '(c, s') := get_child sp s l b in Some (c, Some s'))
    (fun _ from => s ← from; Some (Some s))
    (fun m => Some m).

  (** StatelessDdSpec (DdSpec.hpp 197-218): no memory at all; [s] is the only state value *)
  Definition ls_stateless (s : St sp) : lspec (St sp) := LSpec (St sp) unit tt (fun _ => true) (fun _ => Some s)
    (fun _ => Some (fst (get_root sp), tt))
    (fun _ l b => Some (fst (get_child sp s l b), tt))
    (fun _ _ => Some tt)
    (fun _ => Some tt).

  (** HybridDdSpec (DdSpec.hpp 567-617): the scalar is constructed by get_root and get_copy; destruct
      does nothing.  [triv]: the scalar type has a trivial destructor. *)
  Definition ls_hybrid (triv : bool) : lspec (St sp) := LSpec (St sp) (option (St sp)) None
    (fun m => triv || isn m) (fun m => m)
    (fun m => if triv || isn m then Some (fst (get_root sp), Some (snd (get_root sp))) else None)
    (fun m l b => s ← m; let '(c, s') := get_child sp s l b in Some (c, Some s'))
    (fun to from => s ← from; if triv || isn to then Some (Some s) else None)
    (fun m => Some m).
End base.

Section binary.
  Context (sp1 sp2 : spec) (L1 : lspec (St sp1)) (L2 : lspec (St sp2)).

  (** BinaryOperation.hpp 53-83: the two levels (plain ints, [None] while not written) and the memory
      of the two component states *)
  Record bmem := Bm { bm_l1 : option Z; bm_l2 : option Z; bm_1 : l_T L1; bm_2 : l_T L2 }.
  Definition bm_init : bmem := Bm None None (l_init L1) (l_init L2).
  Definition bm_rawb (m : bmem) : bool := l_rawb L1 (bm_1 m) && l_rawb L2 (bm_2 m).
  Definition bm_val (m : bmem) : option (bstate sp1 sp2) :=
    i1 ← bm_l1 m; i2 ← bm_l2 m; s1 ← l_val L1 (bm_1 m); s2 ← l_val L2 (bm_2 m);
    Some (BState i1 s1 i2 s2).
  (** BinaryOperation.hpp 94-99 *)
  Definition bm_copy (to from : bmem) : option bmem :=
    t1 ← l_copy L1 (bm_1 to) (bm_1 from);
    t2 ← l_copy L2 (bm_2 to) (bm_2 from);
    Some (Bm (bm_l1 from) (bm_l2 from) t1 t2).
  (** BinaryOperation.hpp 106-109 *)
  Definition bm_destruct (m : bmem) : option bmem :=
    t1 ← l_destruct L1 (bm_1 m);
    t2 ← l_destruct L2 (bm_2 m);
    Some (Bm (bm_l1 m) (bm_l2 m) t1 t2).

  (** BinaryOperation.hpp 172-180 *)
  Definition land_root (m : bmem) : option (Z * bmem) :=
    '(i1, t1) ← l_root L1 (bm_1 m);
    if i1 =? 0 then Some (0, Bm (bm_l1 m) (bm_l2 m) t1 (bm_2 m)) else
    '(i2, t2) ← l_root L2 (bm_2 m);
    if i2 =? 0 then Some (0, Bm (bm_l1 m) (bm_l2 m) t1 t2) else
    Some (Z.max i1 i2, Bm (Some i1) (Some i2) t1 t2).
  (** BinaryOperation.hpp 182-195 (without the assertion) *)
  Definition land_child (m : bmem) (level : Z) (take : nat) : option (Z * bmem) :=
    v1 ← bm_l1 m; v2 ← bm_l2 m;
    '(i1, t1) ← (if v1 =? level then l_child L1 (bm_1 m) level take else Some (v1, bm_1 m));
    if (v1 =? level) && (i1 =? 0) then Some (0, Bm (bm_l1 m) (bm_l2 m) t1 (bm_2 m)) else
    '(i2, t2) ← (if v2 =? level then l_child L2 (bm_2 m) level take else Some (v2, bm_2 m));
    if (v2 =? level) && (i2 =? 0) then Some (0, Bm (Some i1) (bm_l2 m) t1 t2) else
    Some (Z.max i1 i2, Bm (Some i1) (Some i2) t1 t2).
  Definition ls_and : lspec (St (bdd_and sp1 sp2)) :=
    LSpec _ bmem bm_init bm_rawb bm_val land_root land_child bm_copy bm_destruct.

  (** BinaryOperation.hpp 242-250 *)
  Definition lor_root (m : bmem) : option (Z * bmem) :=
    '(i1, t1) ← l_root L1 (bm_1 m);
    if i1 <? 0 then Some (-1, Bm (bm_l1 m) (bm_l2 m) t1 (bm_2 m)) else
    '(i2, t2) ← l_root L2 (bm_2 m);
    if i2 <? 0 then Some (-1, Bm (bm_l1 m) (bm_l2 m) t1 t2) else
    Some (Z.max i1 i2, Bm (Some i1) (Some i2) t1 t2).
  (** BinaryOperation.hpp 252-268 *)
  Definition lor_child (m : bmem) (level : Z) (take : nat) : option (Z * bmem) :=
    v1 ← bm_l1 m; v2 ← bm_l2 m;
    '(i1, t1) ← (if v1 =? level then l_child L1 (bm_1 m) level take else Some (v1, bm_1 m));
    if (v1 =? level) && (i1 <? 0) then Some (-1, Bm (bm_l1 m) (bm_l2 m) t1 (bm_2 m)) else
    '(i2, t2) ← (if v2 =? level then l_child L2 (bm_2 m) level take else Some (v2, bm_2 m));
    if (v2 =? level) && (i2 <? 0) then Some (-1, Bm (Some i1) (bm_l2 m) t1 t2) else
    Some (Z.max i1 i2, Bm (Some i1) (Some i2) t1 t2).
  Definition ls_or : lspec (St (bdd_or sp1 sp2)) :=
    LSpec _ bmem bm_init bm_rawb bm_val lor_root lor_child bm_copy bm_destruct.

  (** BinaryOperation.hpp 461-469 *)
  Definition lun_root (m : bmem) : option (Z * bmem) :=
    '(i1, t1) ← l_root L1 (bm_1 m);
    '(i2, t2) ← l_root L2 (bm_2 m);
    if (i1 =? 0) && (i2 =? 0) then Some (0, Bm (bm_l1 m) (bm_l2 m) t1 t2) else
    if (i1 <=? 0) && (i2 <=? 0) then Some (-1, Bm (bm_l1 m) (bm_l2 m) t1 t2) else
    Some (Z.max i1 i2, Bm (Some i1) (Some i2) t1 t2).
  (** BinaryOperation.hpp 471-493 *)
  Definition lun_child (m : bmem) (level : Z) (take : nat) : option (Z * bmem) :=
    v1 ← bm_l1 m; v2 ← bm_l2 m;
    '(i1, t1) ← (if v1 =? level then l_child L1 (bm_1 m) level take
                 else Some (if (take =? 0)%nat then v1 else 0, bm_1 m));
    '(i2, t2) ← (if v2 =? level then l_child L2 (bm_2 m) level take
                 else Some (if (take =? 0)%nat then v2 else 0, bm_2 m));
    Some (union_code i1 i2, Bm (Some i1) (Some i2) t1 t2).
  Definition ls_union : lspec (St (zdd_union sp1 sp2)) :=
    LSpec _ bmem bm_init bm_rawb bm_val lun_root lun_child bm_copy bm_destruct.

  (** ** ZddIntersection (BinaryOperation.hpp 303-424): the two component states alone *)
  Definition imem : Type := l_T L1 * l_T L2.
  (** BinaryOperation.hpp 352-363, 372-383 *)
  Fixpoint lmeet (fuel : nat) (i1 : Z) (t1 : l_T L1) (i2 : Z) (t2 : l_T L2) : option (Z * imem) :=
    if i1 =? i2 then Some (i1, (t1, t2)) else
    match fuel with
    | O => Some (0, (t1, t2))
    | S k =>
        if i2 <? i1 then
          '(c, t1') ← l_child L1 t1 i1 0%nat;
          if c =? 0 then Some (0, (t1', t2)) else lmeet k c t1' i2 t2
        else
          '(c, t2') ← l_child L2 t2 i2 0%nat;
          if c =? 0 then Some (0, (t1, t2')) else lmeet k i1 t1 c t2'
    end.
  (** BinaryOperation.hpp 346-364 *)
  Definition lint_root (m : imem) : option (Z * imem) :=
    '(i1, t1) ← l_root L1 (fst m);
    if i1 =? 0 then Some (0, (t1, snd m)) else
    '(i2, t2) ← l_root L2 (snd m);
    if i2 =? 0 then Some (0, (t1, t2)) else
    lmeet (meet_fuel i1 i2) i1 t1 i2 t2.
  (** BinaryOperation.hpp 366-384 *)
  Definition lint_child (m : imem) (level : Z) (take : nat) : option (Z * imem) :=
    '(i1, t1) ← l_child L1 (fst m) level take;
    if i1 =? 0 then Some (0, (t1, snd m)) else
    '(i2, t2) ← l_child L2 (snd m) level take;
    if i2 =? 0 then Some (0, (t1, t2)) else
    lmeet (meet_fuel i1 i2) i1 t1 i2 t2.
  (** BinaryOperation.hpp 386-399 *)
  Definition ls_inter : lspec (St (zdd_intersection sp1 sp2)) :=
    LSpec (St sp1 * St sp2) imem (l_init L1, l_init L2)
      (fun m => l_rawb L1 (fst m) && l_rawb L2 (snd m))
      (fun m => s1 ← l_val L1 (fst m); s2 ← l_val L2 (snd m); Some (s1, s2))
      lint_root lint_child
      (fun to from => t1 ← l_copy L1 (fst to) (fst from); t2 ← l_copy L2 (snd to) (snd from); Some (t1, t2))
      (fun m => t1 ← l_destruct L1 (fst m); t2 ← l_destruct L2 (snd m); Some (t1, t2)).
End binary.

Section unary.
  Context (sp : spec) (L : lspec (St sp)).

  (** Lookahead.hpp 49-60: the loop over b; the memory of work0 and work1 is passed through.
      [true]: returned from inside the loop (57). *)
  Fixpoint lbdd_branches (level level0 : Z) (p w0 w1 : l_T L) (bs : list nat) : option (bool * l_T L * l_T L) :=
    match bs with
    | [] => Some (false, w0, w1)
    | b :: bs' =>
        w1 ← l_copy L w1 p;
        '(level1, w1) ← l_child L w1 level b;
        same ← (if level0 =? level1 then
                  if level0 <=? 0 then Some true
                  else s0 ← l_val L w0; s1 ← l_val L w1; Some (equal_to sp level0 s0 s1)
                else Some false);
        if negb same then
          w0 ← l_destruct L w0;
          w1 ← l_destruct L w1;
          Some (true, w0, w1)
        else
          w1 ← l_destruct L w1;
          lbdd_branches level level0 p w0 w1 bs'
    end.
  (** Lookahead.hpp 43-69; fuel as in M_Ops.bdd_look *)
  Fixpoint lbdd_look (fuel : nat) (level : Z) (p w0 w1 : l_T L) : option (Z * l_T L * l_T L * l_T L) :=
    match fuel with
    | O => Some (level, p, w0, w1)
    | S k =>
        if 1 <=? level then
          w0 ← l_copy L w0 p;
          '(level0, w0) ← l_child L w0 level 0%nat;
          '(stop, w0, w1) ← lbdd_branches level level0 p w0 w1 (seq 1 (ar sp - 1));
          if (stop : bool) then Some (level, p, w0, w1)
          else
            p ← l_destruct L p;
            p ← l_copy L p w0;
            w0 ← l_destruct L w0;
            lbdd_look k level0 p w0 w1
        else Some (level, p, w0, w1)
    end.
  (** work0 and work1 are members of the specification object.  Simplification: every call starts with
      new memory for them and must leave no state in it. *)
  Definition lbdd_look_at (r : Z * l_T L) : option (Z * l_T L) :=
    '(c, p, w0, w1) ← lbdd_look (Z.to_nat (fst r)) (fst r) (snd r) (l_init L) (l_init L);
    if l_rawb L w0 && l_rawb L w1 then Some (c, p) else None.
  (** Lookahead.hpp 36-100 *)
  Definition ls_bdd_lookahead : lspec (St (bdd_lookahead sp)) :=
    LSpec (St sp) (l_T L) (l_init L) (l_rawb L) (l_val L)
      (fun m => r ← l_root L m; lbdd_look_at r)
      (fun m l b => r ← l_child L m l b; lbdd_look_at r)
      (l_copy L) (l_destruct L).

  (** Lookahead.hpp 131-138 *)
  Fixpoint lzdd_branches (level : Z) (p q : l_T L) (bs : list nat) : option (bool * l_T L) :=
    match bs with
    | [] => Some (false, q)
    | b :: bs' =>
        q ← l_copy L q p;
        '(c, q) ← l_child L q level b;
        q ← l_destruct L q;
        if negb (c =? 0) then Some (true, q) else lzdd_branches level p q bs'
    end.
  (** Lookahead.hpp 128-143 *)
  Fixpoint lzdd_look (fuel : nat) (level : Z) (p q : l_T L) : option (Z * l_T L * l_T L) :=
    match fuel with
    | O => Some (level, p, q)
    | S k =>
        if 1 <=? level then
          '(stop, q) ← lzdd_branches level p q (seq 1 (ar sp - 1));
          if (stop : bool) then Some (level, p, q)
          else '(c, p) ← l_child L p level 0%nat; lzdd_look k c p q
        else Some (level, p, q)
    end.
  Definition lzdd_look_at (r : Z * l_T L) : option (Z * l_T L) :=
    '(c, p, q) ← lzdd_look (Z.to_nat (fst r)) (fst r) (snd r) (l_init L);
    if l_rawb L q then Some (c, p) else None.
  (** Lookahead.hpp 122-175 *)
  Definition ls_zdd_lookahead : lspec (St (zdd_lookahead sp)) :=
    LSpec (St sp) (l_T L) (l_init L) (l_rawb L) (l_val L)
      (fun m => r ← l_root L m; lzdd_look_at r)
      (fun m l b => r ← l_child L m l b; lzdd_look_at r)
      (l_copy L) (l_destruct L).

  (** Unreduction.hpp 73-101: the level (a plain int) and the memory of the state *)
  Definition umem : Type := option Z * l_T L.
  Definition lun_root1 (nv : Z) (m : umem) : option (Z * umem) :=
    '(c, t) ← l_root L (snd m);
    if c =? 0 then Some (0, (Some c, t)) else
    let nv' := if nv <=? c then c else nv in
    Some (if 0 <? nv' then nv' else -1, (Some c, t)).
  Definition lun_child1 (zdd : bool) (m : umem) (i : Z) (value : nat) : option (Z * umem) :=
    lv ← fst m;
    if lv =? i then
      '(c, t) ← l_child L (snd m) i value;
      if c =? 0 then Some (0, (Some c, t)) else Some (if 0 <? i - 1 then i - 1 else c, (Some c, t))
    else if zdd && negb (value =? 0)%nat then Some (0, m)
    else Some (if 0 <? i - 1 then i - 1 else lv, m).
  Definition ls_unreduction (zdd : bool) (nv : Z) : lspec (St (unreduction sp zdd nv)) :=
    LSpec (Z * St sp) umem (None, l_init L) (fun m => l_rawb L (snd m))
      (fun m => lv ← fst m; s ← l_val L (snd m); Some (lv, s))
      (lun_root1 nv) (lun_child1 zdd)
      (fun to from => t ← l_copy L (snd to) (snd from); Some (fst from, t))
      (fun m => t ← l_destruct L (snd m); Some (fst m, t)).
End unary.

(** ** The builder (dd/DdBuilder.hpp 174-389) *)
Section builder.
  Context (sp : spec) (L : lspec (St sp)) (mrg : St sp -> St sp -> nat).
  (** what newly allocated memory holds *)
  Context (fresh : nat -> l_T L).

  (** the allocated memory blocks for states.  Simplification: an address is never used again. *)
  Notation heap := (gmap nat (l_T L)).
  (** a released block must not contain a live state *)
  Definition h_free (H : heap) (x : nat) : option heap :=
    m ← H !! x; if l_rawb L m then Some (delete x H) else None.
  Definition h_val (H : heap) (x : nat) : option (St sp) := m ← H !! x; l_val L m.
  Definition h_copy (H : heap) (to from : nat) : option heap :=
    mt ← H !! to; mf ← H !! from; m ← l_copy L mt mf; Some (<[to := m]> H).
  Definition h_child (H : heap) (x : nat) (i : nat) (b : nat) : option (Z * heap) :=
    m ← H !! x; '(c, m') ← l_child L m (Z.of_nat i) b; Some (c, <[x := m']> H).
  Definition h_destruct (H : heap) (x : nat) : option heap :=
    m ← H !! x; m' ← l_destruct L m; Some (<[x := m']> H).

  (** SpecNode (DdBuilder.hpp 45-70): srcPtr and the address of the state; srcPtr is [None] until it
      is written *)
  Record lnode := Ln { l_at : nat; l_src : option src }.
  (** snodeTable (DdBuilder.hpp 186) *)
  Notation sntab := (list (list lnode)).
  Definition sn_push (sn : sntab) (l : nat) (p : lnode) : option sntab :=
    ps ← sn !! l; Some (<[l := p :: ps]> sn).
  (** srcPtr(pp) = &q.branch[b] for the front node of a list *)
  Definition sn_src (sn : sntab) (l : nat) (x : src) : option sntab :=
    ps ← sn !! l;
    match ps with [] => None | p :: ps' => Some (<[l := Ln (l_at p) (Some x) :: ps']> sn) end.
  Definition sn_front (sn : sntab) (l : nat) : option lnode := ps ← sn !! l; head ps.
  Definition sn_tail (sn : sntab) (l : nat) : option sntab :=
    ps ← sn !! l; match ps with [] => None | _ :: ps' => Some (<[l := ps']> sn) end.

  (** the part of the builder that pass 2 changes: output, snodeTable, memory, next address, pp,
      lowestChild, allZero, oneSrcPtr *)
  Record l2 := L2 { o_t : table; o_sn : sntab; o_H : heap; o_nx : nat; o_pp : nat; o_low : nat;
                    o_az : bool; o_src : list nbi }.

  (** DdBuilder.hpp 325-377; [one] is the address of oneStorage, [p] the one of state(p) *)
  Definition lbranch (i one p jj : nat) (st : l2) (b : nat) : option l2 :=
    let '(L2 t sn H nx pp low az osrc) := st in
    H ← h_copy H pp p;
    '(c, H) ← h_child H pp i b;
    if c =? 0 then
      t ← tset_child t (mk i jj) b n0;
      H ← h_destruct H pp;
      Some (L2 t sn H nx pp low az osrc)
    else if c <? 0 then
      '(t, H, osrc) ←
        match osrc with
        | [] =>
            H ← h_copy H one pp;
            t ← tset_child t (mk i jj) b n1;
            Some (t, H, [Nb i jj b])
        | _ :: _ =>
            o ← h_val H one;
            s ← h_val H pp;
            match mrg o s with
            | 1%nat =>
                t ← zero_ones osrc t;
                H ← h_destruct H one;
                H ← h_copy H one pp;
                t ← tset_child t (mk i jj) b n1;
                Some (t, H, [Nb i jj b])
            | 2%nat => t ← tset_child t (mk i jj) b n0; Some (t, H, osrc)
            | _ => t ← tset_child t (mk i jj) b n1; Some (t, H, Nb i jj b :: osrc)
            end
        end;
      H ← h_destruct H pp;
      Some (L2 t sn H nx pp low false osrc)
    else
      let ii := Z.to_nat c in
      if (ii =? i - 1)%nat then
        sn ← sn_src sn ii (SBr i jj b);
        sn ← sn_push sn ii (Ln nx None);
        Some (L2 t sn (<[nx := fresh nx]> H) (Datatypes.S nx) nx low false osrc)
      else if (ii <? i)%nat then                               (* assert(ii < i - 1) *)
        sn ← sn_push sn ii (Ln nx (Some (SBr i jj b)));
        H ← h_copy (<[nx := fresh nx]> H) nx pp;
        H ← h_destruct H pp;
        Some (L2 t sn H (Datatypes.S nx) pp (min low ii) false osrc)
      else None.

  (** DdBuilder.hpp 308-383: the node at the front of snodes; [f] is its nodeId *)
  Definition lnode_step (i one : nat) (acc : l2 * nat * nat) (f : nid) : option (l2 * nat * nat) :=
    let '(st, dead, jj) := acc in
    p ← sn_front (o_sn st) i;
    '(st, dead, jj) ←
      (if neqb f n1 then Some (st, dead, jj)
       else if neqb f n0 then
         t ← ofor (ar sp) (fun t b => tset_child t (mk i jj) b n0) (o_t st);
         Some (L2 t (o_sn st) (o_H st) (o_nx st) (o_pp st) (o_low st) true (o_src st), Datatypes.S dead, Datatypes.S jj)
       else
         st ← ofor (ar sp) (lbranch i one (l_at p) jj)
                (L2 (o_t st) (o_sn st) (o_H st) (o_nx st) (o_pp st) (o_low st) true (o_src st));
         Some (st, if o_az st then Datatypes.S dead else dead, Datatypes.S jj));
    H ← h_destruct (o_H st) (l_at p);
    (* snodes.pop_front() *)
    H ← h_free H (l_at p);
    sn ← sn_tail (o_sn st) i;
    Some (L2 (o_t st) sn H (o_nx st) (o_pp st) (o_low st) (o_az st) (o_src st), dead, jj).

  (** the state of pending nodes as pass 1 sees it *)
  Definition lload (H : heap) (l : nat) (p : lnode) : option (pnode (St sp)) :=
    x ← l_src p; s ← h_val H (l_at p); Some (Pn l 0 0 x s).

  (** output, *root, snodeTable, memory, next address, sweeper, oneSrcPtr *)
  Record lst := Lst { lout : table; lroot : nid; lsn : sntab; lheap : heap; lnext : nat; lsw : sweeper;
                      losrc : list nbi }.

  (** DdBuilder.hpp 258-388; pass 1 only reads states, it is M_Merge.mpass1 *)
  Definition lconstruct (one : nat) (i : nat) (st : lst) : option lst :=
    r ← lout st !! i;
    snodes ← lsn st !! i;
    ps ← mapM (lload (lheap st) i) snodes;
    '(ids, m, tr) ← mpass1 (sp_hash sp) (sp_eqb sp) mrg i ps (length r) (lout st, lroot st);
    r' ← fst tr !! i;
    t1 ← set_row (fst tr) i (take m r' ++ replicate (m - length r') (junk_node (ar sp)));
    (* pp = snodeTable[i - 1].alloc_front() *)
    let pp := lnext st in
    sn ← sn_push (lsn st) (i - 1) (Ln pp None);
    '(st2, dead, _) ← ofold (lnode_step i one) ids
       (L2 t1 sn (<[pp := fresh pp]> (lheap st)) (Datatypes.S pp) pp (i - 1) true (losrc st), 0%nat, length r);
    (* snodeTable[i - 1].pop_front() *)
    p ← sn_front (o_sn st2) (i - 1);
    sn ← sn_tail (o_sn st2) (i - 1);
    H ← h_free (o_H st2) (l_at p);
    '(sw', t3, root', osrc) ← mupdate (lsw st) (o_t st2) (snd tr) (o_src st2) i (o_low st2) dead;
    Some (Lst t3 root' sn H (o_nx st2) sw' osrc).

  (** ~DdBuilder (206-211): destruct [one] when it is in use; then oneStorage is released *)
  Definition lfinish (one : nat) (osrc : list nbi) (H : heap) : option heap :=
    H ← (match osrc with [] => Some H | _ :: _ => h_destruct H one end);
    h_free H one.

  (** DdStructure(spec) (DdStructure.hpp 104-134): the builder is created (oneStorage: address 0), its
      initialize (DdBuilder.hpp 231-252; tmpState: address 1, the first pending node: address 2), the
      levels, the end of the builder.  The result is the diagram with the memory still allocated. *)
  Definition lbuild : option (dd * heap) :=
    let H : heap := {[0%nat := fresh 0]} in
    let H : heap := <[1%nat := fresh 1]> H in
    m ← H !! 1%nat;
    '(c, m) ← l_root L m;
    let H := <[1%nat := m]> H in
    if c <=? 0 then
      H ← h_destruct H 1;
      H ← h_free H 1;
      H ← lfinish 0 [] H;
      Some (Dd (ar sp) (init_table (ar sp) 0) (if c =? 0 then n0 else n1), H)
    else
      let n := Z.to_nat c in
      let sn : sntab := replicate (Datatypes.S n) [] in
      sn ← sn_push sn n (Ln 2 (Some SRoot));
      H ← h_copy (<[2%nat := fresh 2]> H) 2 1;
      H ← h_destruct H 1;
      H ← h_free H 1;
      st ← ofold (fun st i => lconstruct 0 i st) (reverse (seq 1 n))
             (Lst (init_table (ar sp) n) n0 sn H 3 sw0 []);
      H ← lfinish 0 (losrc st) (lheap st);
      Some (Dd (ar sp) (lout st) (lroot st), H).
End builder.
