(** C40: the text written by dumpSapporo. *)
From Coq Require Import Ascii String.
From Verif Require Import Base Sem M_Table M_Builder S_Dd S_Text S_Sapporo M_Text M_Dump P_Index P_Dump P_Builder P_Wfb Ex.
Local Open Scope nat_scope.

(** specifications with the same walks have the same meaning *)
Lemma run_zdd (p q : spec) a v : vec_ok a v -> forall l c s c' s',
  (forall bs, Forall (fun b => b < a) bs -> run p c s bs = run q c' s' bs) ->
  zdd_eval p l c s v = zdd_eval q l c' s' v /\ bdd_eval p l c s v = bdd_eval q l c' s' v.
Proof.
  intros Hv. induction l as [|l IH]; intros c s c' s' H.
  - pose proof (H [] ltac:(constructor)) as E. injection E as ->. done.
  - pose proof (H [] ltac:(constructor)) as E. injection E as ->. cbn [zdd_eval bdd_eval].
    destruct (Z.eqb_spec c' (Z.of_nat (S l))) as [->|Hne].
    + apply IH. intros bs Hbs. specialize (H (v (S l) :: bs) ltac:(by constructor)). cbn [run] in H.
      destruct (Z.ltb_spec 0 (Z.of_nat (S l))); [|lia]. by injection H.
    + destruct (IH c' s c' s' H) as [E1 E2]. rewrite E1, E2. done.
Qed.

(** C40: for a well-formed binary diagram whose root is a node, and in which no node above the root's level
    refers to the root's level, the text is a correct file of the format: the header agrees with the lines
    that follow, every reference is to a node of a lower level written before, and the diagram that a reader
    of the file gets, starting from the last line, is the diagram that was dumped: the same levels along
    every sequence of branches, the same Boolean function and the same family. *)
Theorem C40_dump : forall d, dd_wf d -> d_ar d = 2 -> 0 < row (rt d) ->
  (forall i c b g, row (rt d) < i -> child (tab d) (mk i c) b = Some g -> row g <> row (rt d)) ->
  exists txt f r, dump_sapporo d = Some txt /\ read_file txt = Some f /\ file_ok f /\
    f_levels f = numVars d /\ f_outputs f = [r] /\ length (f_nodes f) = table_size (tab d) /\
    (forall bs, Forall (fun b => b < 2) bs -> file_walk f r bs = walk d bs) /\
    (forall n v, vec_ok 2 v -> zdd_sem (file_spec f r) n v = zdd_sem (dd_spec d) n v /\
                               bdd_sem (file_spec f r) n v = bdd_sem (dd_spec d) n v).
Proof.
  intros d Hd Har Hr Hno. eexists _, (file_of d), (ref_of (tab d) (rt d)).
  pose proof (file_walk_of d Hd Har) as Hw. split_and!.
  - apply dump_ok; [done|done|done|]. intros i Hi (c & b & g & Hg & Hrow). by apply (Hno i c b g); [lia|..].
  - by apply read_whole.
  - by apply file_of_ok.
  - done.
  - done.
  - unfold file_of. cbn [f_nodes]. rewrite all_length by (pose proof (len_pos d Hd Har); lia). apply off_end.
  - exact Hw.
  - intros n v Hv. unfold zdd_sem, bdd_sem. apply (run_zdd _ _ 2 v Hv). exact Hw.
Qed.

(** Diagrams in which every node but the root is referred to from a higher level, in particular every
    constructed diagram, meet the premise: nothing is above the root. *)
Lemma nothing_above d : dd_wf d ->
  (forall f, 0 < row f -> is_Some (tget (tab d) f) -> code f <> code (rt d) ->
     exists f' b g, child (tab d) f' b = Some g /\ code g = code f /\ row f < row f') ->
  forall f, row (rt d) < row f -> tget (tab d) f = None.
Proof.
  intros Hd H. assert (forall k f, length (tab d) - row f <= k -> row (rt d) < row f -> tget (tab d) f = None) as G; [|eauto].
  induction k as [|k IH]; intros f Hk Hr.
  - unfold tget. by rewrite lookup_ge_None_2 by lia.
  - destruct (tget (tab d) f) as [p|] eqn:E; [|done]. exfalso.
    destruct (H f) as (f' & b & g & Hg & _ & Hlt); [lia|by rewrite E|intros [=]; lia|].
    unfold child in Hg. rewrite IH in Hg; [done|lia|lia].
Qed.

Theorem C40_dump_constructed : forall sp d, spec_ok sp -> ar sp = 2 -> construct_dd sp = Some d -> 0 < row (rt d) ->
  exists txt f r, dump_sapporo d = Some txt /\ read_file txt = Some f /\ file_ok f /\ f_outputs f = [r] /\
    forall n v, vec_ok 2 v -> zdd_sem (file_spec f r) n v = zdd_sem sp n v /\
                              bdd_sem (file_spec f r) n v = bdd_sem sp n v.
Proof.
  intros sp d Hok Ha E Hr. destruct (construct_built sp Hok) as (d' & E' & HB). assert (d' = d) as -> by congruence.
  pose proof HB as (Har & Hd & _ & _ & Hup & _). rewrite Ha in Har.
  destruct (C40_dump d Hd Har Hr) as (txt & f & r & H1 & H2 & H3 & _ & H5 & _ & _ & H8).
  { intros i c b g Hi Hg. unfold child in Hg. rewrite (nothing_above d Hd Hup (mk i c)) in Hg; [done|done]. }
  exists txt, f, r. split_and!; try done. intros n v Hv. destruct (H8 n v Hv) as [-> ->].
  rewrite <- Ha in Hv. destruct (built_sem sp d n v Hok HB Hv) as [-> ->]. done.
Qed.

(** The premises cannot be dropped: with a constant diagram the last line reads nodeId[0][..], which is empty... *)
Theorem C40_constant_refuted : forall d, dd_wf d -> d_ar d = 2 -> row (rt d) = 0 -> dump_sapporo d = None.
Proof. intros d Hd Ha Hr. by apply dump_terminal. Qed.
(** ... and if some level above the root refers to the root's level, the identifiers of that level have been
    released before the last line is written. *)
Theorem C40_released_root_refuted : forall d i c b g, dd_wf d -> d_ar d = 2 ->
  row (rt d) < i -> child (tab d) (mk i c) b = Some g -> row g = row (rt d) -> dump_sapporo d = None.
Proof.
  intros d i c b g Hd Ha Hi Hg Hrow. apply (dump_cleared d Hd Ha i).
  - split; [done|]. unfold child, tget in Hg. cbn [row col mk] in Hg.
    destruct (tab d !! i) eqn:E; [|done]. by apply lookup_lt_Some in E.
  - by exists c, b, g.
Qed.

(** The diagram of all 2-subsets of 4 items, the text written for it, and two vectors read from the file. *)
Example C40_case : spec_ok (comb 4 2) /\ exists d txt f, construct_dd (comb 4 2) = Some d /\ row (rt d) = 4 /\
  dump_sapporo d = Some txt /\
  txt = concat (map (fun s => lit s ++ [nl])
    ["_i 4"; "_o 1"; "_n 8"; "2 1 T F"; "4 1 F T"; "6 2 4 2"; "8 2 F 4"; "10 2 2 F"; "12 3 6 10"; "14 3 8 6"; "16 4 14 12"; "16"]%string) /\
  read_file txt = Some f /\
  zdd_sem (file_spec f (SNode 16)) 4 (vec_of [0; 1; 0; 1]) = true /\
  zdd_sem (file_spec f (SNode 16)) 4 (vec_of [0; 1; 0; 0]) = false.
Proof.
  split; [apply comb_ok|]. do 3 eexists.
  split_and!; [vm_compute; reflexivity|vm_compute; reflexivity|vm_compute; reflexivity|vm_compute; reflexivity|vm_compute; reflexivity|..].
  - vm_compute. reflexivity.
  - vm_compute. reflexivity.
Qed.

(** Diagrams that the refutations are about: a constant, and one with a node above the root. *)
Example C40_refuted_case :
  let c := Dd 2 [terminal_row 2] n1 in
  let r := Dd 2 [terminal_row 2; [[n0; n1]]; [[mk 1 0; n1]]] (mk 1 0) in
  dd_wf c /\ row (rt c) = 0 /\ dd_wf r /\ child (tab r) (mk 2 0) 0 = Some (mk 1 0) /\ dump_sapporo r = None.
Proof.
  cbn zeta. split_and!; try done; try (apply dd_wfb_ok; vm_compute; reflexivity).
Qed.

Print Assumptions C40_dump.
Print Assumptions C40_dump_constructed.
Print Assumptions C40_constant_refuted.
Print Assumptions C40_released_root_refuted.
