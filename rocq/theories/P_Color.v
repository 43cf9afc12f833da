(** NAryZdd and OneHotNAryZdd. *)
From Verif Require Import Base Sem M_Table M_Color S_Queen S_Color.
Local Open Scope nat_scope.

Section nary.
  Context (m n : nat) (Hm : 0 < m) (oneHot : bool) (v : vec).
  Notation sp := (nary_base m n oneHot).
  Definition start (i : nat) : Z := if i =? 0 then (-1)%Z else Z.of_nat (i * m).
  (** the first [r] levels of group [i] *)
  Definition part (i r : nat) : Prop :=
    (forall j j', j < r -> j' < r -> v (i * m + j + 1) <> 0 -> v (i * m + j' + 1) <> 0 -> j = j') /\
    (oneHot = true \/ i = 0 -> exists j, j < r /\ v (i * m + j + 1) <> 0).
  Lemma skip_eval i r : r <= m -> zdd_eval sp (i * m + r) (start i) tt v = true <-> (forall j, j < r -> v (i * m + j + 1) = 0) /\ zdd_eval sp (i * m) (start i) tt v = true.
  Proof.
    induction r as [|r IH]; intros Hr.
    - rewrite Nat.add_0_r. split; [intros H; split; [lia|done]|tauto].
    - replace (i * m + S r) with (S (i * m + r)) by lia. cbn [zdd_eval].
      assert ((start i =? Z.of_nat (S (i * m + r)))%Z = false) as -> by (apply Z.eqb_neq; unfold start; destruct (Nat.eqb_spec i 0); lia).
      replace (i * m + r + 1) with (S (i * m + r)) in * by lia.
      destruct (Nat.eqb_spec (v (S (i * m + r))) 0) as [E|E].
      + rewrite IH by lia. split; intros [H1 H2]; (split; [|done]).
        * intros j Hj. destruct (decide (j = r)) as [->|]; [by rewrite Nat.add_1_r|apply H1; lia].
        * intros j Hj. apply H1. lia.
      + split; [done|]. intros [H _]. specialize (H r ltac:(lia)). rewrite Nat.add_1_r in H. done.
  Qed.
  Lemma arith i r : r < m -> (i * m + r) / m = i /\ (i * m + r) mod m = r.
  Proof. intros H. rewrite Nat.add_comm. split; [rewrite Nat.div_add, Nat.div_small by lia; lia|rewrite Nat.mod_add, Nat.mod_small by lia; lia]. Qed.
  Lemma zero_eval l : zdd_eval sp l 0%Z tt v = false.
  Proof. induction l as [|l IH]; [done|]. cbn [zdd_eval]. destruct (Z.eqb_spec 0 (Z.of_nat (S l))); [lia|]. by destruct (_ =? 0). Qed.
  Definition below_ok (i : nat) : Prop := forall i', i' < i -> part i' m.
  Lemma part_S i r : v (S (i * m + r)) = 0 -> part i (S r) <-> part i r.
  Proof.
    intros E. rewrite <- Nat.add_1_r in E. unfold part. split; intros [H1 H2]; (split; [intros j j' Hj Hj' A B|intros Hc; destruct (H2 Hc) as (j & Hj & Hv); exists j; split; [|done]]).
    - apply H1; try done; lia.
    - destruct (decide (j = r)) as [->|]; [done|lia].
    - destruct (decide (j = r)) as [->|]; [done|]. destruct (decide (j' = r)) as [->|]; [done|]. apply H1; try done; lia.
    - lia.
  Qed.
  Lemma part_take i r : v (S (i * m + r)) <> 0 -> part i (S r) <-> forall j, j < r -> v (i * m + j + 1) = 0.
  Proof.
    intros E. rewrite <- Nat.add_1_r in E. unfold part. split.
    - intros [H1 _] j Hj. destruct (decide (v (i * m + j + 1) = 0)) as [|Hn]; [done|]. rewrite (H1 j r) in Hj by (done || lia). lia.
    - intros H. split; [|intros _; exists r; split; [lia|done]]. intros j j' Hj Hj' A B.
      destruct (decide (j = r)) as [->|]; [|by rewrite H in A by lia]. destruct (decide (j' = r)) as [->|]; [done|by rewrite H in B by lia].
  Qed.
  Lemma group_eval i : (zdd_eval sp (i * m) (start i) tt v = true <-> below_ok i) ->
    forall r, 0 < r <= m -> zdd_eval sp (i * m + r) (Z.of_nat (i * m + r)) tt v = true <-> part i r /\ below_ok i.
  Proof.
    intros HB. induction r as [|r IH]; intros Hr; [lia|]. destruct (arith i r ltac:(lia)) as [Ed Em]. replace (i * m + S r) with (S (i * m + r)) by lia.
    cbn [zdd_eval]. rewrite Z.eqb_refl. cbn [get_child nary_base fst snd]. rewrite Nat2Z.id. unfold na_child. replace (S (i * m + r) - 1) with (i * m + r) by lia. rewrite Ed, Em.
    destruct (Nat.eqb_spec (v (S (i * m + r))) 0) as [E|E]; cbn [negb].
    - rewrite (part_S i r E). destruct (Nat.eqb_spec r 0) as [->|Hr0].
      + rewrite Nat.add_0_r, andb_true_r. assert (Hp : part i 0 <-> ~ (oneHot = true \/ i = 0)).
        { unfold part. split; [intros [_ H] Hc; destruct (H Hc) as (j & Hj & _); lia|intros H; split; [lia|done]]. }
        rewrite Hp.
        assert ((oneHot = true /\ (if oneHot then 0%Z else Z.of_nat (i * m)) = 0%Z) \/ (oneHot = false /\ (if oneHot then 0%Z else Z.of_nat (i * m)) = Z.of_nat (i * m)))
          as [[Eo ->]|[Eo ->]] by (destruct oneHot; auto); [rewrite zero_eval; naive_solver|]. unfold start in HB. destruct (decide (i = 0)) as [Hi|Hi].
        * assert (Z.of_nat (i * m) = 0%Z) as -> by nia. rewrite zero_eval. split; [done|]. intros [H _]. destruct H. by right.
        * rewrite (proj2 (Nat.eqb_neq i 0) Hi) in HB. rewrite HB. split; [|by intros [_ ?]]. intros H. split; [|done]. intros [Ht|Ht]; [by rewrite Eo in Ht|done].
      + rewrite andb_false_r. apply IH. lia.
    - assert ((if i * m =? 0 then (-1)%Z else Z.of_nat (i * m)) = start i) as ->.
      { unfold start. destruct (Nat.eqb_spec i 0), (Nat.eqb_spec (i * m) 0); try done; nia. }
      rewrite skip_eval by lia. by rewrite HB, (part_take i r E).
  Qed.
  Lemma start_eval i : zdd_eval sp (i * m) (start i) tt v = true <-> below_ok i.
  Proof.
    induction i as [|i IH]; [cbn; split; [intros _ ? ?; lia|done]|]. unfold start. cbn [Nat.eqb]. replace (S i * m) with (i * m + m) by lia.
    rewrite (group_eval i IH) by lia. unfold below_ok. split.
    - intros [H1 H2] i' Hi. destruct (decide (i' = i)) as [->|]; [done|apply H2; lia].
    - intros H. split; [apply H; lia|intros; apply H; lia].
  Qed.
  Lemma nary_sem : 0 < n -> zdd_sem sp (m * n) v = true <->
    forall i, i < n -> at_most_one m v i /\ (oneHot = true \/ i = 0 -> exists j, in_group m v i j).
  Proof.
    intros Hn. unfold zdd_sem. cbn [get_root nary_base fst snd]. unfold na_root. rewrite (Nat.mul_comm m n). pose proof (start_eval n) as H. unfold start in H. rewrite (proj2 (Nat.eqb_neq n 0)) in H by lia.
    rewrite H. unfold below_ok, part, at_most_one, in_group. naive_solver.
  Qed.
End nary.

Lemma na_child_range m oneHot l b : 0 < m -> 1 <= l -> (-1 <= na_child m oneHot l b < Z.of_nat l)%Z.
Proof.
  intros Hm Hl. unfold na_child. assert ((l - 1) / m * m <= l - 1) by (rewrite Nat.mul_comm; by apply Nat.mul_div_le; lia).
  destruct b; [destruct (_ =? 0); lia|destruct (oneHot && _); lia].
Qed.
