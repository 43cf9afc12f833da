(** dd/NodeTable.hpp 401-492: NodeTableHandler, the reference counted owner of a node table, and the way DdStructure
    objects use it (DdStructure.hpp: copy, assignment, reduce 384-407, zddSubset_ 175-224, constructors 62-153,
    getDiagram 268-278).  Objects live in a heap; the allocator returns any address that is free at that moment, so the
    address of a deleted object may be used again.
    Simplifications: the cached level index of the table is in M_Index.v; what the algorithms do to the tables they own is
    a parameter (their models are in M_Builder.v, M_Reducer.v, M_Subset.v); a history ends when an exception is thrown. *)
From Verif Require Import Base M_Table.
From stdpp Require Import gmap.

(** struct Object (403-427); refCount is unsigned *)
Record hobj := Obj { refs : N; entity : table }.
Notation heap := (gmap nat hobj).
Definition u32 (x : N) : N := (x mod 2 ^ 32)%N.

Inductive outcome (A : Type) := Done (a : A) | Thrown | Undef.
Arguments Done {A}. Arguments Thrown {A}. Arguments Undef {A}.
Definition obnd {A B} (x : outcome A) (f : A -> outcome B) : outcome B :=
  match x with Done a => f a | Thrown => Thrown | Undef => Undef end.
Notation "'run' p ':=' x 'in' e" := (obnd x (fun p => e)) (at level 200, p pattern, x at level 200, e at level 200, right associativity).
(** reading through a pointer to an object that does not exist is undefined *)
Definition load (h : heap) (p : nat) : outcome hobj := match h !! p with Some o => Done o | None => Undef end.
Definition odef {A} (x : option A) : outcome A := match x with Some a => Done a | None => Undef end.

(** new address; the table of an object of n rows for arity [a] (NodeTable.hpp 49-53) *)
Definition new_table (a n : nat) : table := terminal_row a :: replicate (n - 1) [].

Section handler.
Context (a : nat) (alloc : heap -> nat).

(** new Object(n) and new Object(entity) (407-413) *)
Definition h_alloc (h : heap) (t : table) : heap * nat := let p := alloc h in (<[p := Obj 1 t]> h, p).
(** ref (415-418) *)
Definition h_ref (h : heap) (p : nat) : outcome heap :=
  run o := load h p in
  let r := u32 (refs o + 1) in
  if (r =? 0)%N then Thrown else Done (<[p := Obj r (entity o)]> h).
(** deref (420-423): --refCount wraps; delete this *)
Definition h_deref (h : heap) (p : nat) : outcome heap :=
  run o := load h p in
  let r := u32 (refs o + (2 ^ 32 - 1)) in
  if (r =? 0)%N then Done (delete p h) else Done (<[p := Obj r (entity o)]> h).
(** NodeTableHandler(n) (430-432), copy constructor (434-437), operator= (439-444), destructor (446-448) *)
Definition h_new (h : heap) (n : nat) : heap * nat := h_alloc h (new_table a n).
Definition h_copy (h : heap) (o : nat) : outcome (heap * nat) := run h' := h_ref h o in Done (h', o).
Definition h_assign (h : heap) (p o : nat) : outcome (heap * nat) :=
  run h1 := h_deref h p in run h2 := h_ref h1 o in Done (h2, o).
Definition h_destroy (h : heap) (p : nat) : outcome heap := h_deref h p.
(** privateEntity (462-468): new Object(pointer->entity) reads the old object after deref *)
Definition h_private (h : heap) (p : nat) : outcome (heap * nat) :=
  run o := load h p in
  if (2 <=? refs o)%N
  then run h1 := h_deref h p in run o' := load h1 p in Done (h_alloc h1 (entity o'))
  else Done (h, p).
(** init (475-484) *)
Definition h_init (h : heap) (p n : nat) : outcome (heap * nat) :=
  run o := load h p in
  if (refs o =? 1)%N then Done (<[p := Obj 1 (new_table a n)]> h, p)
  else run h1 := h_deref h p in Done (h_new h1 n).
(** derefLevel (490-492) *)
Definition h_derefLevel (h : heap) (p i : nat) : outcome heap :=
  run o := load h p in
  if (refs o =? 1)%N then run t := odef (set_row (entity o) i []) in Done (<[p := Obj 1 t]> h) else Done h.
(** writes through the reference returned by privateEntity *)
Definition h_write (h : heap) (p : nat) (t : table) : outcome heap :=
  run o := load h p in Done (<[p := Obj (refs o) t]> h).

(** ** DdStructure objects: program variables holding a handler and a root *)
Record world := World { hp : heap; vars : gmap nat (nat * nid) }.

(** [algorithm on a table and a root]: result, or None when the algorithm itself has no defined behaviour *)
Inductive op :=
| Construct (x rows : nat) (f : table -> option (table * nid))   (** DdStructure x(...): fills a private table *)
| Copy (x y : nat)                                               (** DdStructure x(y) *)
| Assign (x y : nat)                                             (** x = y *)
| Destroy (x : nat)                                              (** x goes out of scope *)
| Reduce (x : nat) (f : table -> nid -> option (table * table * nid)) (** x.bddReduce() ...: what is left of the input; result *)
| Subset (x : nat) (y : option nat) (lv : list nat) (f : bool -> table -> nid -> option (table * nid))
      (** x.zddSubset(spec), where spec may be another (or the same) structure y, which is copied; lv are the levels
          passed to derefLevel; the boolean tells whether the rows are kept *)
| Modify (x : nat) (f : table -> option table)                   (** x.getDiagram().privateEntity() and writes *)
| Init (x rows : nat)                                            (** x.getDiagram().init(rows) *)
| SetRoot (x : nat) (r : nid).                                   (** x.root() = r *)

Definition var (w : world) (x : nat) : outcome (nat * nid) := odef (vars w !! x).
(** the release of levels during subsetting (DdStructure.hpp 187, 214) *)
Fixpoint h_release (h : heap) (p : nat) (lv : list nat) : outcome heap :=
  match lv with [] => Done h | i :: lv' => run h1 := h_derefLevel h p i in h_release h1 p lv' end.

Definition exec (w : world) (c : op) : outcome world :=
  match c with
  | Construct x rows f =>
      (* diagram(rows), then diagram.privateEntity() is filled *)
      let '(h1, p) := h_new (hp w) rows in
      run (h2, p2) := h_private h1 p in
      run o := load h2 p2 in
      run (t, r) := odef (f (entity o)) in
      run h3 := h_write h2 p2 t in
      Done (World h3 (<[x := (p2, r)]> (vars w)))
  | Copy x y =>
      run (p, r) := var w y in
      run (h1, q) := h_copy (hp w) p in
      Done (World h1 (<[x := (q, r)]> (vars w)))
  | Assign x y =>
      run (p, _) := var w x in
      run (q, r) := var w y in
      run (h1, p') := h_assign (hp w) p q in
      Done (World h1 (<[x := (p', r)]> (vars w)))
  | Destroy x =>
      run (p, _) := var w x in
      run h1 := h_destroy (hp w) p in
      Done (World h1 (delete x (vars w)))
  | Reduce x f =>
      (* DdReducer.hpp 87-114: input(diagram.privateEntity()), oldDiagram(diagram), newDiagram(numRows),
         output(newDiagram.privateEntity()), diagram = newDiagram; both tables are written; then the members
         newDiagram and oldDiagram are destructed *)
      run (p, r) := var w x in
      run (h1, inp) := h_private (hp w) p in
      run (h2, old) := h_copy h1 inp in
      run oi := load h2 inp in
      let '(h3, new) := h_new h2 (length (entity oi)) in
      run (h4, outp) := h_private h3 new in
      run (h5, dia) := h_assign h4 inp outp in
      run oi5 := load h5 inp in
      run (tin, tout, r') := odef (f (entity oi5) r) in
      run h6 := h_write h5 inp tin in
      run h7 := h_write h6 outp tout in
      run h8 := h_destroy h7 outp in
      run h9 := h_destroy h8 old in
      Done (World h9 (<[x := (dia, r')]> (vars w)))
  | Subset x y lv f =>
      (* NodeTableHandler tmpTable; ZddSubsetter zs(diagram, spec, tmpTable): spec is copied, input(diagram contents),
         output(tmpTable.privateEntity()); the levels are processed and released; diagram = tmpTable; then zs
         (with its copy of the spec) and tmpTable are destructed *)
      run (p, r) := var w x in
      let '(h1, tmp) := h_new (hp w) 1 in
      run (h2, sp) := (match y with
                     | None => Done (h1, None)
                     | Some y => run (q, _) := var w y in run (h', q') := h_copy h1 q in Done (h', Some q')
                     end) in
      run (h3, outp) := h_private h2 tmp in
      run oi := load h3 p in
      run (t, r') := odef (f (2 <=? refs oi)%N (entity oi) r) in
      run h4 := h_write h3 outp t in
      run h5 := h_release h4 p lv in
      run (h6, dia) := h_assign h5 p outp in
      run h7 := (match sp with None => Done h6 | Some q => h_destroy h6 q end) in
      run h8 := h_destroy h7 outp in
      Done (World h8 (<[x := (dia, r')]> (vars w)))
  | Modify x f =>
      run (p, r) := var w x in
      run (h1, p1) := h_private (hp w) p in
      run o := load h1 p1 in
      run t := odef (f (entity o)) in
      run h2 := h_write h1 p1 t in
      Done (World h2 (<[x := (p1, r)]> (vars w)))
  | Init x rows =>
      run (p, r) := var w x in
      run (h1, p1) := h_init (hp w) p rows in
      Done (World h1 (<[x := (p1, r)]> (vars w)))
  | SetRoot x r =>
      run (p, _) := var w x in Done (World (hp w) (<[x := (p, r)]> (vars w)))
  end.

Fixpoint exec_all (w : world) (l : list op) : outcome world :=
  match l with [] => Done w | c :: l' => run w' := exec w c in exec_all w' l' end.
Definition world0 : world := World ∅ ∅.
End handler.
