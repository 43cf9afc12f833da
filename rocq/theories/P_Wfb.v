(** A boolean check of well-formedness, for concrete diagrams. *)
From Verif Require Import Base M_Table.

Definition validb (t : table) (f : nid) : bool :=
  if row f =? 0 then col f <? 2 else match tget t f with Some _ => true | None => false end.
Definition dd_wfb (d : dd) : bool :=
  (0 <? d_ar d) && validb (tab d) (rt d) &&
  match tab d with
  | [] => false
  | r :: rs => (length r =? 2) && forallb (fun p => length p =? d_ar d) r &&
      forallb (fun ix => forallb (fun p => (length p =? d_ar d) && forallb (fun g => (row g <? fst ix) && validb (tab d) g) p) (snd ix))
        (zip (seq 1 (length rs)) rs)
  end.
Lemma validb_ok t f : validb t f = true <-> valid t f.
Proof.
  unfold validb, valid. destruct (row f =? 0).
  - rewrite Nat.ltb_lt. done.
  - destruct (tget t f); split; intros H; try done. by destruct H.
Qed.
Lemma dd_wfb_ok d : dd_wfb d = true -> dd_wf d.
Proof.
  unfold dd_wfb. rewrite !andb_true_iff. intros [[Ha Hv] H]. apply Nat.ltb_lt in Ha. apply validb_ok in Hv.
  destruct (tab d) as [|r rs] eqn:Et; [done|]. rewrite !andb_true_iff in H. destruct H as [[H1 H2] H3].
  apply Nat.eqb_eq in H1. rewrite forallb_forall in H2, H3.
  assert (forall i x, (r :: rs) !! S i = Some x -> forall p, p ∈ x -> length p = d_ar d /\ forall g, g ∈ p -> row g < S i /\ valid (r :: rs) g) as Hrow.
  { intros i x Hx p Hp. simpl in Hx. specialize (H3 (S i, x)).
    assert (In (S i, x) (zip (seq 1 (length rs)) rs)) as Hin.
    { apply elem_of_list_In, elem_of_list_lookup. exists i. apply lookup_zip_with_Some. exists (S i), x. split_and!; try done.
      apply lookup_seq. split; [done|]. by eapply lookup_lt_Some. }
    specialize (H3 Hin). rewrite forallb_forall in H3. specialize (H3 p ltac:(by apply elem_of_list_In)). rewrite andb_true_iff in H3. destruct H3 as [H4 H5].
    apply Nat.eqb_eq in H4. split; [done|]. intros g Hg. rewrite forallb_forall in H5. specialize (H5 g ltac:(by apply elem_of_list_In)).
    apply andb_true_iff in H5 as [H5 H6]. apply Nat.ltb_lt in H5. simpl in H5. split; [done|]. by apply validb_ok. }
  split; [done|]. rewrite Et. split; [|done]. constructor.
  - exists r. split_and!; [done|done|]. apply Forall_forall. intros p Hp. apply Nat.eqb_eq, H2. by apply elem_of_list_In.
  - intros [|i] x j p Hx Hj.
    + simpl in Hx. injection Hx as <-. apply Nat.eqb_eq, H2. apply elem_of_list_In. by eapply elem_of_list_lookup_2.
    + apply (Hrow i x Hx p). by eapply elem_of_list_lookup_2.
  - intros [|i] x j p b g Hi Hx Hj Hb; [lia|]. eapply (Hrow i x Hx p); by eapply elem_of_list_lookup_2.
Qed.
