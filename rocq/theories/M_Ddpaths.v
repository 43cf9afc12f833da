(** The program ddpaths (apps/ddpaths/ddpaths.cpp 165-327): the calls it makes on a graph that has been read, colored and, for
    cycles, stripped of its colors.  A parallel construction or subsetting may run under any schedule, so the program is
    a relation between the graph, the options and the final diagram. *)
From stdpp Require Import strings gmap.
From Verif Require Import Base Sem M_Table M_Conv M_Size M_Graph M_Degree M_Simpath M_PathMap M_Fbs M_GraphIO Props_Reduce S_Api.
Local Open Scope Z_scope.

(** -t *)
Inductive pd_type : Set := TPath | TCycle | TComponents.
(** the graph (165-190): read, colored by the groups or, for paths without groups, by the default, and stripped of its colors
    for cycles; None is the message "The graph is empty", "Colored vertices are not paired" or an exception of Graph *)
Definition pd_graph (es : list edge_name) (n2c : list (string * string)) (t : pd_type) : option graph :=
  g0 ← graph_update es n2c;
  g1 ← match t with TPath => if (g_numColor g0 =? 0)%nat then setDefaultPathColor es g0 else Some g0 | _ => Some g0 end;
  let g2 := match t with TCycle => clearColors g1 | _ => g1 end in
  if (edgeSize g2 =? 0)%nat then None
  else match t with TPath => if g_hasColorPairs g2 then Some g2 else None | _ => Some g2 end.

(** options (46-66, 111-114); -p only selects the parallel code and is left open; numbers given to -lb and -ub *)
Record pd_opts : Type := PdOpts {
  o_cycle : bool;          (* -t cycle; otherwise -t path *)
  o_dc : bool;
  o_lb : option Z;
  o_ub : option Z;
  o_hamilton : bool;
  o_slow : bool;
  o_nola : bool;
  o_nored : bool
}.
Definition o_bounded (lb ub : option Z) : bool := match lb, ub with None, None => false | _, _ => true end.
(** IntRange r(optNum["lb"], optNum["ub"]) (223) with the defaults of 113-114; the step is 1 *)
Definition pd_range (lb ub : option Z) : int_subset := int_range (default 0 lb) (default int_max ub) 1.

(** "if (!opt["nored"]) f.zddReduce();" *)
Definition pd_reduce (nored : bool) (d d' : dd) : Prop := if nored then d' = d else reduction false true d d'.

(** the DegreeConstraint of 204-215 *)
Definition pd_degrees (g : graph) : option degc :=
  foldl (fun G v => G ← G; deg_set G v (Some (if (colorNumber g v =? 0)%nat then int_range 0 2 2 else int_range 1 1 1)))
    (Some (deg_new g None true)) (seq 1 (vertexSize g)).

(** DdStructure<2> f(n), replaced by the degree constraint with -dc (197, 203-220) *)
Definition pd_start (g : graph) (dc : bool) (f : dd) : Prop :=
  if dc then exists G d, pd_degrees g = Some G /\ constructed (deg_spec G) d /\ reduction false true d f
  else universal 2 (edgeSize g) = Some f.
(** 222-227 *)
Definition pd_sized (g : graph) (lb ub : option Z) (f f' : dd) : Prop :=
  if o_bounded lb ub then exists d, subsetted f (size_spec (Z.of_nat (edgeSize g)) (Some (pd_range lb ub))) d /\ reduction false true d f'
  else f' = f.
(** the specification of 232-244, 249-260, 271-283 and 288-299 *)
Definition pd_spec (g : graph) (o : pd_opts) : spec :=
  if o_hamilton o then sm_spec (Simpath g (o_cycle o) true (negb (o_nola o)))
  else if o_slow o then pm_spec g
  else sm_spec (Simpath g (o_cycle o) false (negb (o_nola o))).
(** 249-265, 288-304, 310-319: build, and with -lb or -ub intersect with the sizes *)
Definition pd_build (sp : spec) (bounded nored : bool) (f f' : dd) : Prop :=
  exists d, constructed sp d /\
    if bounded then exists d', pd_reduce nored d d' /\ subsetted d' (dd_spec f) f' else f' = d.
(** -t path and -t cycle (231-307) *)
Definition ddpaths (g : graph) (o : pd_opts) (f : dd) : Prop :=
  exists f0 f1 f2, pd_start g (o_dc o) f0 /\ pd_sized g (o_lb o) (o_ub o) f0 f1 /\
    (if o_dc o then subsetted f1 (pd_spec g o) f2 else pd_build (pd_spec g o) (o_bounded (o_lb o) (o_ub o)) (o_nored o) f1 f2) /\
    pd_reduce (o_nored o) f2 f.
(** -t cc and -t forest (309-324); uec is the number given to -uec, -1 without it; FrontierBasedSearch looks ahead *)
Definition ddcomponents (g : graph) (forest : bool) (uec : Z) (lb ub : option Z) (nored : bool) (f : dd) : Prop :=
  exists f0 f1 f2, pd_start g false f0 /\ pd_sized g lb ub f0 f1 /\
    pd_build (fb_spec (Fbs g uec forest true)) (o_bounded lb ub) nored f1 f2 /\ pd_reduce nored f2 f.
