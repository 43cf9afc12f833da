(** Geometry of the frontier of a numbered graph. *)
From stdpp Require Import strings gmap.
From Verif Require Import Base M_Graph S_Graph Props_Graph.
Local Open Scope nat_scope.

(** the first vertex of the frontier at edge i (one past the last vertex after the last edge) *)
Definition V0 (m : nat) (es : list edge_info) (i : nat) : nat :=
  match es !! i with Some e => e_v0 e | None => S m end.

Section front.
Context (m : nat) (es : list edge_info) (HN : numbering_ok m es).

Lemma V0_at i e : es !! i = Some e -> V0 m es i = e_v0 e.
Proof. intros H. unfold V0. by rewrite H. Qed.
Lemma V0_end : V0 m es (length es) = S m.
Proof. unfold V0. by rewrite lookup_ge_None_2. Qed.

Lemma inc_at i e x : es !! i = Some e -> incident es i x <-> e_v1 e = x \/ e_v2 e = x.
Proof. intros H. split; [intros (f & Hf & Hx); assert (f = e) as -> by congruence; done|intros Hx; by exists e]. Qed.
Lemma inc_bound b x : incident es b x -> b < length es.
Proof. intros (f & Hf & _). by eapply lookup_lt_Some. Qed.

Lemma V0_mono i : i < length es -> V0 m es i <= V0 m es (S i).
Proof.
  intros Hi. destruct (lookup_lt_is_Some_2 es i Hi) as [e He]. rewrite (V0_at _ _ He).
  destruct (no_range _ _ HN _ _ He) as (R1 & R2 & R3 & R4).
  destruct (es !! S i) as [f|] eqn:Hf; [|unfold V0; rewrite Hf; lia]. rewrite (V0_at _ _ Hf).
  destruct (decide (e_v0 e <= e_v0 f)) as [|Hlt]; [done|]. exfalso.
  destruct (no_v0 _ _ HN _ _ Hf) as [(b & Hb & Hinc) _]. destruct (no_v0 _ _ HN _ _ He) as [_ Hno].
  destruct (no_range _ _ HN _ _ Hf) as (Q1 & _). apply (Hno (e_v0 f) b); [lia|lia|done].
Qed.

(** the vertices that leave at edge i are exactly its ends that are marked final *)
Lemma front_fin i e x : es !! i = Some e -> V0 m es i <= x <= m ->
  (x < V0 m es (S i) <-> (x = e_v1 e /\ e_v1final e = true) \/ (x = e_v2 e /\ e_v2final e = true)).
Proof.
  intros He Hx. rewrite (V0_at _ _ He) in Hx. destruct (no_range _ _ HN _ _ He) as (R1 & R2 & R3 & R4).
  assert (Hlast : x < V0 m es (S i) <-> forall b, ~ later es i x b).
  { destruct (es !! S i) as [f|] eqn:Hf.
    - rewrite (V0_at _ _ Hf). destruct (no_v0 _ _ HN _ _ Hf) as [(b0 & Hb0 & Hinc0) Hno]. destruct (no_range _ _ HN _ _ Hf) as (Q1 & Q2 & Q3 & Q4). split.
      + intros Hlt b [Hb Hinc]. apply (Hno x b); [lia|lia|done].
      + intros H. destruct (decide (x < e_v0 f)) as [|Hge]; [done|]. exfalso.
        destruct (no_order _ _ HN (e_v0 f) x b0) as (b & Hb & Hinc); [lia|lia|lia|done|]. apply (H b). split; [lia|done].
    - assert (V0 m es (S i) = S m) as -> by (unfold V0; by rewrite Hf). apply lookup_ge_None in Hf. split; [|lia].
      intros _ b [Hb Hinc]. apply inc_bound in Hinc. lia. }
  rewrite Hlast. split.
  - intros H. assert (incident es i x) as Hinc.
    { destruct (no_v0 _ _ HN _ _ He) as [(b0 & Hb0 & Hinc0) _]. destruct (no_order _ _ HN (e_v0 e) x b0) as (b & Hb & Hinc); [lia|lia|lia|done|].
      destruct (decide (b = i)) as [->|]; [done|]. exfalso. apply (H b). split; [lia|done]. }
    apply (inc_at _ _ _ He) in Hinc as [<-|<-]; [left|right]; (split; [done|]).
    + by apply (no_final1 _ _ HN _ _ He).
    + by apply (no_final2 _ _ HN _ _ He).
  - intros [[-> H]|[-> H]]; [by apply (no_final1 _ _ HN _ _ He)|by apply (no_final2 _ _ HN _ _ He)].
Qed.

(** no later edge at a vertex that has left *)
Lemma front_left i x b : 1 <= x -> x < V0 m es i -> i <= b -> ~ incident es b x.
Proof.
  intros Hx Hlt Hb Hinc. destruct (es !! i) as [e|] eqn:He.
  - rewrite (V0_at _ _ He) in Hlt. destruct (no_v0 _ _ HN _ _ He) as [_ Hno]. apply (Hno x b); [lia|lia|done].
  - apply lookup_ge_None in He. apply inc_bound in Hinc. lia.
Qed.
Lemma front_first i e : es !! i = Some e -> i = 0 -> e_v0 e = 1.
Proof.
  intros He ->. destruct (no_range _ _ HN _ _ He) as (R1 & R2 & R3 & R4). destruct (decide (e_v0 e = 1)) as [|Hne]; [done|]. exfalso.
  destruct (no_used _ _ HN 1) as [a Ha]; [lia|]. destruct (no_v0 _ _ HN _ _ He) as [_ Hno]. apply (Hno 1 a); [lia|lia|done].
Qed.

(** the frontier moves by at most M cells *)
Lemma V0_step M i : (forall a e, es !! a = Some e -> e_v2 e - e_v0 e < M) -> i < length es -> V0 m es (S i) <= V0 m es i + M.
Proof.
  intros HM Hi. destruct (lookup_lt_is_Some_2 es i Hi) as [e He]. pose proof (V0_mono i Hi) as Hmono.
  destruct (decide (V0 m es (S i) = V0 m es i)) as [->|Hne]; [lia|].
  pose proof (HM _ _ He). destruct (no_range _ _ HN _ _ He) as (R1 & R2 & R3 & R4). rewrite (V0_at _ _ He) in *.
  assert (V0 m es (S i) <= S m).
  { destruct (es !! S i) as [f|] eqn:Hf; [|unfold V0; rewrite Hf; lia]. rewrite (V0_at _ _ Hf). destruct (no_range _ _ HN _ _ Hf). lia. }
  pose proof (proj1 (front_fin i e (V0 m es (S i) - 1) He ltac:(rewrite (V0_at _ _ He); lia)) ltac:(lia)). lia.
Qed.
End front.

Lemma max_frontier g a e : g_edgeInfo g !! a = Some e -> e_v2 e - e_v0 e < maxFrontierSize g.
Proof. apply C36_frontier_size. Qed.
