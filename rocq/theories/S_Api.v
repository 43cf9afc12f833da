(** Programs over the API: every specification and every diagram that a program can obtain, over [n] variables with
    values 0..a-1, by any sequence of construction, operations on specifications, reduction, subsetting and
    conversion - sequential or parallel, under any schedule - together with the family of vectors it stands for.
    The family is computed from the specifications the user wrote by the set operations the API names, and by
    nothing else. *)
From Verif Require Import Base Sem M_Table Tree M_Engine M_Builder M_Ops M_Conv M_Subset Props_Reduce.
Local Open Scope nat_scope.

(** how a diagram is read *)
Inductive reading := ABdd | AZdd.
Definition is_zdd (k : reading) : bool := match k with ABdd => false | AZdd => true end.
Definition means (k : reading) (sp : spec) (n : nat) (v : vec) : bool :=
  match k with ABdd => bdd_sem sp n v | AZdd => zdd_sem sp n v end.

(** DdStructure(spec, useMP) *)
Inductive constructed (sp : spec) (d : dd) : Prop :=
| con_sequential : construct_dd sp = Some d -> constructed sp d
| con_parallel threads tasks sched : 0 < threads -> 0 < tasks -> sched_ok threads (fun _ => tasks) sched ->
    construct_mp sp threads tasks sched = Some d -> constructed sp d.
(** zddSubset; [shared]: another object holds the same table *)
Inductive subsetted (d : dd) (sp : spec) (d' : dd) : Prop :=
| sub_sequential shared : zdd_subset shared d sp = Some d' -> subsetted d sp d'
| sub_parallel threads sched shared : 0 < threads -> sched_ok threads (sub_groups (tab d)) sched ->
    zdd_subset_mp threads sched shared d sp = Some d' -> subsetted d sp d'.
(** bddReduce, zddReduce *)
Definition reduced_as (k : reading) : dd -> dd -> Prop :=
  match k with ABdd => reduction true false | AZdd => reduction false true end.

Section programs.
  Context (a n : nat).
  Inductive api_spec : reading -> spec -> (vec -> bool) -> Prop :=
  (** a specification that keeps the documented contract *)
  | as_user k sp : spec_ok sp -> spec_congr sp -> one_code sp -> ar sp = a -> top_level sp <= n ->
      api_spec k sp (means k sp n)
  (** a diagram used as a specification *)
  | as_diagram k d P : api_dd k d P -> api_spec k (dd_spec d) P
  | as_and s1 s2 P1 P2 : a = 2 -> api_spec ABdd s1 P1 -> api_spec ABdd s2 P2 ->
      api_spec ABdd (bdd_and s1 s2) (fun v => P1 v && P2 v)
  | as_or s1 s2 P1 P2 : a = 2 -> api_spec ABdd s1 P1 -> api_spec ABdd s2 P2 ->
      api_spec ABdd (bdd_or s1 s2) (fun v => P1 v || P2 v)
  | as_intersection s1 s2 P1 P2 : a = 2 -> api_spec AZdd s1 P1 -> api_spec AZdd s2 P2 ->
      api_spec AZdd (zdd_intersection s1 s2) (fun v => P1 v && P2 v)
  | as_union s1 s2 P1 P2 : a = 2 -> api_spec AZdd s1 P1 -> api_spec AZdd s2 P2 ->
      api_spec AZdd (zdd_union s1 s2) (fun v => P1 v || P2 v)
  | as_bdd_lookahead s P : api_spec ABdd s P -> api_spec ABdd (bdd_lookahead s) P
  | as_zdd_lookahead s P : api_spec AZdd s P -> api_spec AZdd (zdd_lookahead s) P
  (** BddUnreduction and ZddUnreduction: no level is skipped, so both readings of the result agree *)
  | as_unreduction k k' s P : api_spec k s P -> api_spec k' (unreduction s (is_zdd k) (Z.of_nat n)) P
  with api_dd : reading -> dd -> (vec -> bool) -> Prop :=
  | ad_default k : api_dd k (empty_dd a) (fun _ => false)
  | ad_universal k d : universal a n = Some d -> api_dd k d (fun _ => true)
  | ad_construct k s P d : api_spec k s P -> constructed s d -> api_dd k d P
  | ad_reduce k d P d' : api_dd k d P -> reduced_as k d d' -> api_dd k d' P
  | ad_qdd_reduce k d P d' : api_dd k d P -> reduction false false d d' -> api_dd k d' P
  | ad_subset d P s R d' : api_dd AZdd d P -> api_spec AZdd s R -> subsetted d s d' -> api_dd AZdd d' (fun v => P v && R v)
  | ad_bdd2zdd d P d' : api_dd ABdd d P -> bdd2zdd (Z.of_nat n) d = Some d' -> api_dd AZdd d' P
  | ad_zdd2bdd d P d' : api_dd AZdd d P -> zdd2bdd (Z.of_nat n) d = Some d' -> api_dd ABdd d' P.
End programs.
Scheme api_spec_mind := Induction for api_spec Sort Prop
  with api_dd_mind := Induction for api_dd Sort Prop.
Combined Scheme api_ind from api_spec_mind, api_dd_mind.
