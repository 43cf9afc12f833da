(** The contract between a builder and the memory operations of a specification.
    [sp] is the specification as a user thinks of it (values only), [L] its operations on memory. *)
From Verif Require Import Base Sem M_Life.
Local Open Scope Z_scope.

(** the object in the block can be destructed, and nothing is left in the block then *)
Definition destructible {S} (L : lspec S) (m : l_T L) : Prop :=
  exists m', l_destruct L m = Some m' /\ l_rawb L m' = true.

(** What the builder relies on. *)
Record life_ok (sp : spec) (L : lspec (St sp)) : Prop := {
  (* get_root builds a state in free memory; a state that stands for a node has the right value *)
  lo_root : forall m, l_rawb L m = true -> exists m',
    l_root L m = Some (fst (get_root sp), m') /\
    (0 < fst (get_root sp) -> l_val L m' = Some (snd (get_root sp))) /\ destructible L m';
  (* get_child turns a constructed state into another one, which can be destructed in any case *)
  lo_child : forall m s l b, l_val L m = Some s -> exists m',
    l_child L m l b = Some (fst (get_child sp s l b), m') /\
    (fst (get_child sp s l b) <> 0 -> l_val L m' = Some (snd (get_child sp s l b))) /\ destructible L m';
  (* get_copy builds a copy in free memory *)
  lo_copy : forall to from s, l_rawb L to = true -> l_val L from = Some s -> exists to',
    l_copy L to from = Some to' /\ l_val L to' = Some s;
  lo_destruct : forall m s, l_val L m = Some s -> destructible L m;
}.

(** The same, where in addition the states that come with a terminal are constructed with their values. *)
Record life_full (sp : spec) (L : lspec (St sp)) : Prop := {
  lf_init : l_rawb L (l_init L) = true;
  lf_root : forall m, l_rawb L m = true -> exists m',
    l_root L m = Some (fst (get_root sp), m') /\ l_val L m' = Some (snd (get_root sp));
  lf_child : forall m s l b, l_val L m = Some s -> exists m',
    l_child L m l b = Some (fst (get_child sp s l b), m') /\ l_val L m' = Some (snd (get_child sp s l b));
  lf_copy : forall to from s, l_rawb L to = true -> l_val L from = Some s -> exists to',
    l_copy L to from = Some to' /\ l_val L to' = Some s;
  lf_destruct : forall m s, l_val L m = Some s -> destructible L m;
}.
