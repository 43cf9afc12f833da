(** Loops in the option monad.  [None] stands for undefined behaviour
    (out of range access, use of released storage). *)
From stdpp Require Export prelude list.
From Coq Require Export ZArith Lia.

(** C++ range loops: fold a body that may fail over a list of loop values. *)
Fixpoint ofold {A S : Type} (f : S -> A -> option S) (l : list A) (s : S) : option S :=
  match l with
  | [] => Some s
  | x :: l' => match f s x with Some s' => ofold f l' s' | None => None end
  end.

(** [for (j = 0; j < m; ++j) body] *)
Definition ofor {S : Type} (m : nat) (f : S -> nat -> option S) (s : S) : option S :=
  ofold f (seq 0 m) s.

(** [for (j = m - 1; j + 1 > 0; --j) body] *)
Definition ofor_down {S : Type} (m : nat) (f : S -> nat -> option S) (s : S) : option S :=
  ofold f (reverse (seq 0 m)) s.

Lemma ofold_app {A S} (f : S -> A -> option S) l1 l2 s :
  ofold f (l1 ++ l2) s = match ofold f l1 s with Some s' => ofold f l2 s' | None => None end.
Proof.
  revert s; induction l1 as [|x l1 IH]; intros s; simpl; [done|].
  destruct (f s x); [apply IH|done].
Qed.

Lemma ofold_inv {A S} (f : S -> A -> option S) (P : list A -> S -> Prop) l s :
  P [] s ->
  (forall pre x post s, l = pre ++ x :: post -> P pre s ->
     exists s', f s x = Some s' /\ P (pre ++ [x]) s') ->
  exists s', ofold f l s = Some s' /\ P l s'.
Proof.
  intros H0 Hstep.
  assert (forall post pre s, l = pre ++ post -> P pre s ->
            exists s', ofold f post s = Some s' /\ P l s') as G.
  { induction post as [|x post IH]; intros pre s1 Hl HP; simpl.
    - exists s1. rewrite app_nil_r in Hl. subst. done.
    - destruct (Hstep pre x post s1 Hl HP) as (s' & Hf & HP'). rewrite Hf.
      apply (IH (pre ++ [x])); [|done]. subst. by rewrite <- app_assoc. }
  apply (G l []); done.
Qed.

Lemma ofor_inv {S} (f : S -> nat -> option S) (P : nat -> S -> Prop) m s :
  P 0 s ->
  (forall j s, j < m -> P j s -> exists s', f s j = Some s' /\ P (Datatypes.S j) s') ->
  exists s', ofor m f s = Some s' /\ P m s'.
Proof.
  intros H0 Hstep. unfold ofor.
  destruct (ofold_inv f (fun pre s => length pre <= m /\ P (length pre) s) (seq 0 m) s)
    as (s' & Hs & HP).
  - simpl; split; [lia|done].
  - intros pre x post s1 Hl [Hle HP].
    assert (length pre < m).
    { apply (f_equal length) in Hl. rewrite seq_length, app_length in Hl. simpl in Hl. lia. }
    assert (x = length pre) as ->.
    { assert (seq 0 m !! length pre = Some x) as Hx.
      { rewrite Hl. rewrite lookup_app_r by lia. by rewrite Nat.sub_diag. }
      apply lookup_seq in Hx. lia. }
    destruct (Hstep _ _ H HP) as (s2 & Hf & HP2). exists s2. split; [done|].
    rewrite app_length; simpl. rewrite Nat.add_1_r. split; [lia|done].
  - rewrite seq_length in HP. exists s'. tauto.
Qed.

Lemma ofor_down_inv {S} (f : S -> nat -> option S) (P : nat -> S -> Prop) m s :
  P m s ->
  (forall j s, j < m -> P (Datatypes.S j) s -> exists s', f s j = Some s' /\ P j s') ->
  exists s', ofor_down m f s = Some s' /\ P 0 s'.
Proof.
  intros H0 Hstep. unfold ofor_down.
  destruct (ofold_inv f (fun pre s => length pre <= m /\ P (m - length pre) s)
              (reverse (seq 0 m)) s) as (s' & Hs & HP).
  - simpl; split; [lia|]. by rewrite Nat.sub_0_r.
  - intros pre x post s1 Hl [Hle HP].
    assert (length pre < m).
    { apply (f_equal length) in Hl. rewrite reverse_length, seq_length, app_length in Hl. simpl in Hl. lia. }
    assert (x = m - Datatypes.S (length pre)) as ->.
    { assert (reverse (seq 0 m) !! length pre = Some x) as Hx.
      { rewrite Hl. rewrite lookup_app_r by lia. by rewrite Nat.sub_diag. }
      rewrite reverse_lookup in Hx by (rewrite seq_length; lia).
      rewrite seq_length in Hx. apply lookup_seq in Hx. lia. }
    destruct (Hstep (m - Datatypes.S (length pre)) s1) as (s2 & Hf & HP2); [lia| |].
    { replace (Datatypes.S (m - Datatypes.S (length pre))) with (m - length pre) by lia. done. }
    exists s2. split; [done|]. rewrite app_length; simpl. rewrite Nat.add_1_r. split; [lia|done].
  - rewrite reverse_length, seq_length, Nat.sub_diag in HP. exists s'. tauto.
Qed.

(** Functional correctness of a loop that terminates is often wanted the other way
    round: from a successful run conclude the invariant. *)
Lemma ofold_inv_run {A S} (f : S -> A -> option S) (P : list A -> S -> Prop) l s s' :
  ofold f l s = Some s' ->
  P [] s ->
  (forall pre x post s s1, l = pre ++ x :: post -> P pre s -> f s x = Some s1 -> P (pre ++ [x]) s1) ->
  P l s'.
Proof.
  intros Hrun H0 Hstep.
  assert (forall post pre s, l = pre ++ post -> P pre s -> ofold f post s = Some s' -> P l s') as G.
  { induction post as [|x post IH]; intros pre s1 Hl HP Hr; simpl in Hr.
    - inversion Hr; subst. rewrite app_nil_r in *. done.
    - destruct (f s1 x) as [s2|] eqn:Hf; [|done].
      apply (IH (pre ++ [x]) s2); [|by eapply Hstep|done]. subst. by rewrite <- app_assoc. }
  by apply (G l [] s).
Qed.
