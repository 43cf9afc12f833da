(** What a DOT file shows: the statements of the file, and the specification that a reader of the picture sees. *)
From Coq Require Import Ascii String.
From Verif Require Import Base Sem M_Text.
Local Open Scope nat_scope.

(** a node is named by its row and its column *)
Notation name := (nat * nat)%type.
Definition show_name (x : name) : text := [ascii_of_nat 34] ++ dec (fst x) ++ lit ":" ++ dec (snd x) ++ [ascii_of_nat 34].
Definition in_quotes (t : text) : text := [ascii_of_nat 34] ++ t ++ [ascii_of_nat 34].

(** how the edges for the values 0, 1, ... are drawn *)
Inductive style := Dashed | Solid | Blue | Red | Green.
Definition show_style (y : style) : text :=
  match y with
  | Dashed => lit "dashed" | Solid => lit "solid"
  | Blue => lit "solid,color=blue" | Red => lit "solid,color=red" | Green => lit "solid,color=green"
  end.
Definition style_of (a b : nat) : style :=
  match b with 0 => Dashed | 1 => if a <=? 2 then Solid else Blue | 2 => Red | _ => Green end.

Inductive stmt :=
| SLevel (i : nat) (label : text)       (* the label of a level at the margin *)
| SBelow (i i' : nat)                   (* keeps level i' below level i *)
| STitle (title : text)
| SStart (title : text) (x : name)      (* the title points at the root *)
| SNode (x : name) (label : text)
| SEdge (x y : name) (st : style)
| SRank (i : nat) (xs : list name)      (* nodes drawn at the height of level i *)
| SOne (x : name).                      (* the 1-terminal *)
Definition show (s : stmt) : text :=
  match s with
  | SLevel i t => lit "  " ++ dec i ++ lit " [shape=none,label=" ++ in_quotes t ++ lit "];" ++ [nl]
  | SBelow i i' => lit "  " ++ dec i ++ lit " -> " ++ dec i' ++ lit " [style=invis];" ++ [nl]
  | STitle t => lit "  labelloc=" ++ in_quotes (lit "t") ++ lit ";" ++ [nl] ++ lit "  label=" ++ in_quotes t ++ lit ";" ++ [nl]
  | SStart t x => lit "  " ++ in_quotes (lit "^") ++ lit " [shape=none,label=" ++ in_quotes t ++ lit "];" ++ [nl] ++
      lit "  " ++ in_quotes (lit "^") ++ lit " -> " ++ show_name x ++ lit " [style=dashed];" ++ [nl]
  | SNode x t => lit "  " ++ show_name x ++ lit " [label=" ++ in_quotes t ++ lit "];" ++ [nl]
  | SEdge x y st => lit "  " ++ show_name x ++ lit " -> " ++ show_name y ++ lit " [style=" ++ show_style st ++ lit "];" ++ [nl]
  | SRank i xs => lit "  {rank=same; " ++ dec i ++ concat (map (fun x => lit "; " ++ show_name x) xs) ++ lit "}" ++ [nl]
  | SOne x => lit "  " ++ show_name x ++ lit " [shape=square,margin=0.05,width=0,label=" ++ in_quotes (lit "T") ++ lit "];" ++ [nl]
  end.
Definition show_file (title : text) (ss : list stmt) : text :=
  lit "digraph " ++ in_quotes title ++ lit " {" ++ [nl] ++ concat (map show ss) ++ lit "}" ++ [nl].

(** ** reading the picture *)
Global Instance style_dec : EqDecision style.
Proof. solve_decision. Defined.
(** the first arrow of a style that leaves a node *)
Definition arrow (ss : list stmt) (x : name) (st : style) : option name :=
  head (omap (fun s => match s with SEdge x' y st' => if decide (x = x' /\ st = st') then Some y else None | _ => None end) ss).
Definition is_one (ss : list stmt) (x : name) : bool := existsb (fun s => match s with SOne y => bool_decide (x = y) | _ => false end) ss.
(** an arrow that is not there leads to the 0-terminal; other nodes are at the height of their row *)
Definition at_node (ss : list stmt) (x : option name) : Z * option name :=
  match x with
  | None => (0%Z, None)
  | Some x => if is_one ss x then ((-1)%Z, Some x) else (Z.of_nat (fst x), Some x)
  end.
Definition start (ss : list stmt) : option name := head (omap (fun s => match s with SStart _ x => Some x | _ => None end) ss).
Definition picture (a : nat) (ss : list stmt) : spec := {|
  St := option name;
  ar := a;
  get_root := at_node ss (start ss);
  get_child := fun s _ b => match s with Some x => at_node ss (arrow ss x (style_of a b)) | None => (0%Z, None) end;
  equal_to := fun _ s s' => bool_decide (s = s');
  hash_code := fun _ _ => 0%N
|}.

(** [state x] is the state shown by node [x], if it is drawn *)
Record well_drawn (sp : spec) (level_text : nat -> text) (state_text : St sp -> nat -> text) (ss : list stmt) (state : name -> option (St sp)) : Prop := {
  wd_label : forall x t, SNode x t ∈ ss <-> exists s, state x = Some s /\ t = state_text s (fst x);
  wd_once : NoDup (omap (fun s => match s with SNode x _ => Some x | _ => None end) ss);
  wd_reach : forall x s, state x = Some s -> 0 < fst x /\ reach sp (Z.of_nat (fst x)) s;
  (** equal states of a level share one node *)
  wd_shared : forall x x' s s', fst x = fst x' -> state x = Some s -> state x' = Some s' -> equal_to sp (Z.of_nat (fst x)) s s' = true -> x = x';
  (** arrows go down, from a drawn node to a drawn node or to the 1-terminal *)
  wd_arrow : forall x y st, SEdge x y st ∈ ss -> is_Some (state x) /\ fst y < fst x /\ (is_one ss y = true \/ is_Some (state y));
  wd_reached : forall x, is_Some (state x) -> start ss = Some x \/ exists y st, SEdge y x st ∈ ss;
  wd_rank : forall i xs, SRank i xs ∈ ss -> forall x, x ∈ xs <-> fst x = i /\ is_Some (state x);
  wd_levels : forall i t, SLevel i t ∈ ss <-> t = level_text i /\ 1 <= i <= top_level sp;
  (** when equal states have equal children, a node shows every state that occurs *)
  wd_all : spec_congr sp -> forall i s, reach sp (Z.of_nat i) s -> exists x s', fst x = i /\ state x = Some s' /\ equal_to sp (Z.of_nat i) s' s = true
}.
