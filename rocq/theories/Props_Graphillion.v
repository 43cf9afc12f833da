(** C48: loading a ZDD from Graphillion's text format.  S_Graphillion.v describes the format and the family of a text. *)
From Coq Require Import Ascii String.
From Verif Require Import Base Sem Ex M_Text S_Text M_Graphillion S_Graphillion P_Graphillion P_Graphillion2.
Local Open Scope Z_scope.

(** The set of a vector: element [i] (lo <= i <= hi) belongs to it iff level [hi - i + 1] has a value other than 0. *)
Definition set_of (lo hi : nat) (v : vec) : list nat :=
  List.filter (fun i => negb (v (hi - i + 1) =? 0)%nat) (seq lo (hi - lo + 1)).

(** For every text in the format, whatever the order of its lines: read() loads it, and the specification accepts exactly the
    sets of the family that the text denotes. *)
Theorem C48_family txt nodes r : graphillion txt = Some nodes -> gfile_ok nodes r ->
  exists z, gz_read txt = Some z /\
    let hi := last_index nodes in let lo := g_index r in
    top_level (gz_spec z) = (hi - lo + 1)%nat /\
    forall v, zdd_sem (gz_spec z) (hi - lo + 1) v = true <-> member nodes (GId (g_id r)) (set_of lo hi v).
Proof.
  intros Ht Hok. destruct (gz_read_ok _ _ _ Ht Hok) as (z & E & Hz). exists z. split; [done|]. cbn zeta.
  destruct (gf_root _ _ Hok) as [Hr _]. pose proof (last_index_ge _ _ Hr) as Hge.
  split; [unfold top_level; rewrite (get_root_ok nodes r z Hok Hz); cbn [fst]; lia|].
  intros v. unfold zdd_sem. rewrite (get_root_ok nodes r z Hok Hz). cbn [fst snd].
  rewrite (eval_ok nodes r z Hok Hz v (last_index nodes - g_index r + 1) ltac:(lia) (GId (g_id r)) _ (root_lev nodes r Hok)) by lia.
  replace (pick nodes v (last_index nodes - g_index r + 1)) with (set_of (g_index r) (last_index nodes) v); [done|].
  unfold set_of, pick. replace (last_index nodes + 1 - (last_index nodes - g_index r + 1))%nat with (g_index r) by lia.
  induction (seq _ _) as [|i l IH]; [done|]. rewrite filter_cons. cbn [List.filter]. rewrite IH.
  destruct (Nat.eqb_spec (v (last_index nodes - i + 1)%nat) 0); case_decide; done.
Qed.

(** The loaded object obeys the contract of specifications, and neither getRoot nor getChild throws. *)
Theorem C48_contract txt nodes r : graphillion txt = Some nodes -> gfile_ok nodes r ->
  exists z, gz_read txt = Some z /\
    gz_getRoot z <> None /\ (forall l f b, reach (gz_spec z) l f -> gz_getChild z f b <> None) /\
    spec_ok (gz_spec z) /\ one_code (gz_spec z) /\ shareable (gz_spec z).
Proof.
  intros Ht Hok. destruct (gz_read_ok _ _ _ Ht Hok) as (z & E & Hz). exists z. split; [done|].
  destruct (gz_spec_ok nodes r z Hok Hz) as [S1 S2]. split_and!; [| |done|done|].
  - unfold gz_getRoot. rewrite (root_ok nodes r z Hok Hz), (level_ok nodes r z Hok Hz _ _ (root_lev nodes r Hok)). done.
  - intros l f b Hr. apply (reach_ok nodes r z Hok Hz) in Hr as (g & Hg & -> & _).
    destruct (def_lev nodes (br g b)) as [L HL]; [by eapply branch_def, (br_ok nodes r Hok)|].
    by rewrite (child_ok nodes r z Hok Hz g b L Hg HL).
  - split; [|intros l s s'; cbn [equal_to gz_spec]; intros ->%Z.eqb_eq; done]. intros l s s'. cbn [equal_to gz_spec]. apply Z.eqb_sym.
Qed.

(** A case: { {3}, {1,2} }, two of its lines in the wrong order. *)
Definition c48_text : text :=
  lit "7 3 B T" ++ [nl] ++ lit "2 1 7 5" ++ [nl] ++ lit "# note" ++ [nl] ++ lit "5 2 B T" ++ [nl] ++ lit "." ++ [nl].
Definition c48_root : gline := GLine 2 1 (GId 7) (GId 5).
Definition c48_nodes : list gline := [GLine 7 3 GB GT; c48_root; GLine 5 2 GB GT].
Example C48_case : graphillion c48_text = Some c48_nodes /\ gfile_ok c48_nodes c48_root /\
  member c48_nodes (GId 2) [3%nat] /\ member c48_nodes (GId 2) [1; 2]%nat /\ ~ member c48_nodes (GId 2) [1; 3]%nat /\
  exists z, gz_read c48_text = Some z /\
    map (fun v => zdd_sem (gz_spec z) 3 (vec_of v)) [[1; 0; 0]; [0; 1; 1]; [1; 0; 1]; [0; 0; 0]]%nat = [true; true; false; false].
Proof.
  assert (graphillion c48_text = Some c48_nodes) as E by (vm_compute; done).
  assert (gfile_ok c48_nodes c48_root) as Hok.
  { constructor.
    - split; [right; left|]. intros l Hl. unfold c48_nodes in Hl. rewrite !elem_of_cons, elem_of_nil in Hl.
      destruct Hl as [->|[->|[->|[]]]]; [right; cbn; lia|by left|right; cbn; lia].
    - intros j j' l l' Hj Hj' He. destruct j as [|[|[|j]]]; destruct j' as [|[|[|j']]]; cbn in Hj, Hj'; simplify_eq; done.
    - intros l Hl. unfold c48_nodes in Hl. rewrite !elem_of_cons, elem_of_nil in Hl.
      destruct Hl as [->|[->|[->|[]]]]; cbn [g_lo g_hi g_index branch_ok c48_root]; split; try done.
      + exists (GLine 7 3 GB GT). split_and!; [left|done|cbn; lia].
      + exists (GLine 5 2 GB GT). split_and!; [right; right; left|done|cbn; lia].
    - intros l Hl. unfold c48_nodes in Hl. rewrite !elem_of_cons, elem_of_nil in Hl.
      destruct Hl as [->|[->|[->|[]]]]; cbn [g_id g_index c48_root]; lia. }
  split_and!; [done|done| | | |].
  - apply (m_lo c48_nodes c48_root); [right; left|]. apply (m_hi c48_nodes (GLine 7 3 GB GT)); [left|constructor].
  - apply (m_hi c48_nodes c48_root); [right; left|]. apply (m_hi c48_nodes (GLine 5 2 GB GT)); [right; right; left|constructor].
  - intros H. destruct (C48_family _ _ _ E Hok) as (z & Ez & _ & F). specialize (F (vec_of [1; 0; 1]%nat)).
    replace (set_of (g_index c48_root) (last_index c48_nodes) (vec_of [1; 0; 1]%nat)) with [1; 3]%nat in F by done.
    apply F in H. assert ((z ← gz_read c48_text; Some (zdd_sem (gz_spec z) 3 (vec_of [1; 0; 1]%nat))) = Some false) as E1 by (vm_compute; done).
    rewrite Ez in E1. cbn [mbind option_bind] in E1. injection E1 as E1.
    change (zdd_sem (gz_spec z) 3 (vec_of [1; 0; 1]%nat) = true) in H. congruence.
  - assert ((z ← gz_read c48_text; Some (map (fun v => zdd_sem (gz_spec z) 3 (vec_of v)) [[1; 0; 0]; [0; 1; 1]; [1; 0; 1]; [0; 0; 0]]%nat))
            = Some [true; true; false; false]) as E1 by (vm_compute; done).
    destruct (gz_read c48_text) as [z|]; [|done]. cbn [mbind option_bind] in E1. exists z. split; [done|]. by apply (inj Some).
Qed.

(** The constants are not loaded: Graphillion writes the family of the empty set as "T" and ".", which is a text of the
    format whose root is T, but the loaded specification accepts nothing. *)
Theorem C48_constant_refuted : exists z, gz_read (lit "T" ++ [nl] ++ lit "." ++ [nl]) = Some z /\
  (forall nodes, member nodes GT []) /\ forall n v, zdd_sem (gz_spec z) n v = false.
Proof.
  exists gz_new. split_and!; [vm_compute; done|intros; constructor|]. intros n v. unfold zdd_sem. cbn [get_root gz_spec].
  replace (default (0, 0) (gz_getRoot gz_new)) with (0, 0) by done. cbn [fst snd].
  induction n as [|n IH]; cbn [zdd_eval]; [done|]. replace (0 =? Z.of_nat (S n)) with false by (symmetry; apply Z.eqb_neq; lia).
  by destruct (_ =? _)%nat.
Qed.

Print Assumptions C48_family.
Print Assumptions C48_contract.
Print Assumptions C48_case.
Print Assumptions C48_constant_refuted.
