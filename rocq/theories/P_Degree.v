(** DegreeConstraint: proofs. *)
From stdpp Require Import strings gmap.
From Verif Require Import Base Sem M_Size M_Graph S_Graph P_Front M_Degree S_Degree P_Size.
Local Open Scope Z_scope.

Lemma wrap16_id z : -32768 <= z <= 32767 -> wrap16 z = z.
Proof. intros H. unfold wrap16. rewrite Z.mod_small; lia. Qed.

Section degree.
Context (G : degc).
Let g := dc_graph G.
Let es := g_edgeInfo g.
Let m := vertexSize g.
Let n := length es.
Let M := maxFrontierSize g.
Context (HN : numbering_ok m es) (HC : length (dc_cons G) = S m) (HL : loop_free g).
Context (HU : forall x c, (1 <= x <= m)%nat -> dc_cons G !! x = Some (Some c) -> upper_sound n c /\ (upperBound c <= 32767 \/ Z.of_nat n <= 32767)).

Definition con (x : nat) : option int_subset := match dc_cons G !! x with Some c => c | None => None end.
Definition val (D : nat -> Z) (x : nat) : Z := match con x with Some _ => D x | None => 0 end.
Definition ends (e : edge_info) (x : nat) : Z := (if (e_v1 e =? x)%nat then 1 else 0) + (if (e_v2 e =? x)%nat then 1 else 0).
Definition step (D : nat -> Z) (e : edge_info) (b : bool) (x : nat) : Z := D x + (if b then ends e x else 0).
Definition Phi (v : vec) (i : nat) (D : nat -> Z) : Prop :=
  forall x c, (V0 m es i <= x <= m)%nat -> con x = Some c -> contains c (D x + degree (drop i es) v x) = true.
Definition bounded (i : nat) (D : nat -> Z) : Prop := (forall x, 0 <= D x <= Z.of_nat i) /\ forall x, (V0 m es i + M <= x)%nat -> D x = 0.
Definition Inv (i : nat) (D : nat -> Z) (mate : list Z) : Prop :=
  length mate = M /\ bounded i D /\ forall k x, mate !! k = Some x -> x = val D (V0 m es i + k).
Definition Post (i : nat) (D : nat -> Z) (mate : list Z) : Prop :=
  length mate = M /\ (forall x, 0 <= D x <= Z.of_nat (S i)) /\ (forall x, (V0 m es i + M <= x)%nat -> D x = 0) /\
  forall k x, mate !! k = Some x -> (V0 m es (S i) <= V0 m es i + k)%nat -> x = val D (V0 m es i + k).

Lemma degree_drop i e v x : es !! i = Some e ->
  degree (drop i es) v x = (if (v (n - i) =? 0)%nat then 0 else ends e x) + degree (drop (S i) es) v x.
Proof.
  intros He. rewrite (drop_S _ _ _ He). cbn [degree]. assert (length (e :: drop (S i) es) = n - i)%nat as ->; [|done].
  cbn [length]. rewrite drop_length. apply lookup_lt_Some in He. unfold n. lia.
Qed.
Lemma degree_zero l v x : (forall a e, l !! a = Some e -> e_v1 e <> x /\ e_v2 e <> x) -> degree l v x = 0.
Proof.
  induction l as [|e l IH]; intros H; cbn [degree]; [done|]. destruct (H 0%nat e eq_refl) as [H1 H2].
  rewrite IH by (intros a f Hf; by apply (H (S a))). destruct (Nat.eqb_spec (e_v1 e) x); [done|]. destruct (Nat.eqb_spec (e_v2 e) x); [done|].
  destruct (_ =? _)%nat; lia.
Qed.
Lemma ends_range a e x : es !! a = Some e -> 0 <= ends e x <= 1.
Proof. intros He. pose proof (HL _ _ He). unfold ends. destruct (Nat.eqb_spec (e_v1 e) x), (Nat.eqb_spec (e_v2 e) x); lia. Qed.
Lemma degree_range i v x : 0 <= degree (drop i es) v x <= Z.of_nat (n - i).
Proof.
  assert (forall k i, (n - i <= k)%nat -> 0 <= degree (drop i es) v x <= Z.of_nat (n - i)) as H; [|by eapply H].
  induction k as [|k IH]; intros j Hj.
  - rewrite drop_ge by (unfold n in *; lia). cbn [degree]. lia.
  - destruct (es !! j) as [e|] eqn:He.
    + rewrite (degree_drop _ _ _ _ He). pose proof (lookup_lt_Some _ _ _ He) as Hlt. fold n in Hlt. specialize (IH (S j) ltac:(lia)).
      pose proof (ends_range _ _ x He). destruct (_ =? 0)%nat; lia.
    + apply lookup_ge_None in He. rewrite drop_ge by lia. cbn [degree]. lia.
Qed.
Lemma degree_left i v x : (1 <= x)%nat -> (x < V0 m es i)%nat -> degree (drop i es) v x = 0.
Proof.
  intros Hx Hlt. apply degree_zero. intros a e He. rewrite lookup_drop in He.
  pose proof (front_left m es HN i x (i + a) Hx Hlt ltac:(lia)) as Hno. split; intros <-; apply Hno; exists e; tauto.
Qed.

(** the data of one edge *)
Lemma edge_data i D mate e : es !! i = Some e -> Inv i D mate -> exists w1 w2,
  deg_cell e (e_v1 e) = Some (e_v1 e - e_v0 e)%nat /\ deg_cell e (e_v2 e) = Some (e_v2 e - e_v0 e)%nat /\
  mate !! (e_v1 e - e_v0 e)%nat = Some w1 /\ mate !! (e_v2 e - e_v0 e)%nat = Some w2 /\ w1 = val D (e_v1 e) /\ w2 = val D (e_v2 e) /\
  dc_cons G !! e_v1 e = Some (con (e_v1 e)) /\ dc_cons G !! e_v2 e = Some (con (e_v2 e)).
Proof.
  intros He (H1 & H2 & H3). destruct (no_range _ _ HN _ _ He) as (R1 & R2 & R3 & R4). pose proof (max_frontier g _ _ He) as HM. fold M in HM.
  destruct (lookup_lt_is_Some_2 mate (e_v1 e - e_v0 e)) as [w1 Hw1]; [lia|]. destruct (lookup_lt_is_Some_2 mate (e_v2 e - e_v0 e)) as [w2 Hw2]; [lia|].
  exists w1, w2. unfold deg_cell. rewrite (proj2 (Nat.leb_le _ _)) by lia. rewrite (proj2 (Nat.leb_le _ _)) by lia.
  split_and!; try done.
  - rewrite (H3 _ _ Hw1). rewrite (V0_at m es i e He). f_equal. lia.
  - rewrite (H3 _ _ Hw2). rewrite (V0_at m es i e He). f_equal. lia.
  - unfold con. destruct (lookup_lt_is_Some_2 (dc_cons G) (e_v1 e)) as [c Hc]; [lia|]. by rewrite Hc.
  - unfold con. destruct (lookup_lt_is_Some_2 (dc_cons G) (e_v2 e)) as [c Hc]; [lia|]. by rewrite Hc.
Qed.

Lemma con_in x c : con x = Some c -> dc_cons G !! x = Some (Some c).
Proof. unfold con. destruct (dc_cons G !! x) as [o|]; [by intros ->|done]. Qed.

(** not takable / not leavable: the degree of an end is wrong *)
Lemma not_takable i e D v x final : es !! i = Some e -> bounded i D -> (x = e_v1 e /\ final = e_v1final e) \/ (x = e_v2 e /\ final = e_v2final e) ->
  deg_takable (con x) (val D x) final = false -> (v (n - i) =? 0)%nat = false -> ~ Phi v i D.
Proof.
  intros He [Hb _] Hx Ht Hv HP. destruct (no_range _ _ HN _ _ He) as (R1 & R2 & R3 & R4).
  assert (Hend : ends e x = 1). { pose proof (HL _ _ He). unfold ends. destruct Hx as [[-> _]|[-> _]]; destruct (Nat.eqb_spec (e_v1 e) (e_v2 e)), (Nat.eqb_spec (e_v2 e) (e_v1 e)); rewrite ?Nat.eqb_refl; done. }
  assert (Hr : (V0 m es i <= x <= m)%nat) by (rewrite (V0_at m es i e He); lia).
  unfold deg_takable, val in Ht. destruct (con x) as [c|] eqn:Ec; [|done]. specialize (HP x c Hr Ec).
  rewrite (degree_drop _ _ _ _ He), Hv, Hend in HP. pose proof (degree_range (S i) v x). pose proof (Hb x).
  pose proof (lookup_lt_Some _ _ _ He) as Hlt. fold n in Hlt.
  destruct (Z.leb_spec (upperBound c) (D x)) as [Hu|Hu].
  - destruct (HU x c) as [HUs _]; [lia|by apply con_in|]. apply HUs in HP; lia.
  - apply orb_false_iff in Ht as [Ht1 Ht2]. apply negb_false_iff in Ht1.
    assert (x < V0 m es (S i))%nat as Hleft. { apply (front_fin m es HN i e x He Hr). destruct Hx as [[-> ->]|[-> ->]]; tauto. }
    rewrite degree_left in HP by lia. rewrite Z.add_0_r in HP. congruence.
Qed.
Lemma not_leavable i e D v x final : es !! i = Some e -> bounded i D -> (x = e_v1 e /\ final = e_v1final e) \/ (x = e_v2 e /\ final = e_v2final e) ->
  deg_leavable (con x) (val D x) final = false -> (v (n - i) =? 0)%nat = true -> ~ Phi v i D.
Proof.
  intros He [Hb _] Hx Ht Hv HP. destruct (no_range _ _ HN _ _ He) as (R1 & R2 & R3 & R4).
  assert (Hr : (V0 m es i <= x <= m)%nat) by (rewrite (V0_at m es i e He); lia).
  unfold deg_leavable, val in Ht. destruct (con x) as [c|] eqn:Ec; [|done]. specialize (HP x c Hr Ec).
  rewrite (degree_drop _ _ _ _ He), Hv in HP. apply orb_false_iff in Ht as [Ht1 Ht2]. apply negb_false_iff in Ht1.
  assert (x < V0 m es (S i))%nat as Hleft. { apply (front_fin m es HN i e x He Hr). destruct Hx as [[-> ->]|[-> ->]]; tauto. }
  rewrite degree_left in HP by lia. rewrite Z.add_0_l, Z.add_0_r in HP. congruence.
Qed.

Definition edge_okb (D : nat -> Z) (e : edge_info) (b : bool) : bool :=
  if b then deg_takable (con (e_v1 e)) (val D (e_v1 e)) (e_v1final e) && deg_takable (con (e_v2 e)) (val D (e_v2 e)) (e_v2final e)
  else deg_leavable (con (e_v1 e)) (val D (e_v1 e)) (e_v1final e) && deg_leavable (con (e_v2 e)) (val D (e_v2 e)) (e_v2final e).

Lemma edge_not_ok i e D v b : es !! i = Some e -> bounded i D -> edge_okb D e b = false -> (v (n - i) =? 0)%nat = negb b -> ~ Phi v i D.
Proof.
  intros He HB Hok Hv. unfold edge_okb in Hok. destruct b; apply andb_false_iff in Hok as [Hok|Hok].
  - eapply not_takable; [done|done|by left|done|done].
  - eapply not_takable; [done|done|by right|done|done].
  - eapply not_leavable; [done|done|by left|done|done].
  - eapply not_leavable; [done|done|by right|done|done].
Qed.

Lemma edge_ok_phi i e D v b : es !! i = Some e -> bounded i D -> edge_okb D e b = true -> (v (n - i) =? 0)%nat = negb b ->
  Phi v i D <-> Phi v (S i) (step D e b).
Proof.
  intros He [Hb Hb'] Hok Hv. destruct (no_range _ _ HN _ _ He) as (R1 & R2 & R3 & R4).
  pose proof (lookup_lt_Some _ _ _ He) as Hlt. pose proof (V0_mono m es HN i Hlt) as Hmono.
  assert (Hsum : forall x, D x + degree (drop i es) v x = step D e b x + degree (drop (S i) es) v x).
  { intros x. rewrite (degree_drop _ _ _ _ He), Hv. unfold step. destruct b; simpl; lia. }
  unfold Phi. split.
  - intros HP x c Hx Hc. rewrite <- Hsum. apply HP; [lia|done].
  - intros HP x c Hx Hc. rewrite Hsum. destruct (decide (V0 m es (S i) <= x)%nat) as [Hge|Hlt']; [apply HP; [lia|done]|].
    rewrite degree_left by (rewrite ?(V0_at m es i e He) in Hx; lia). rewrite Z.add_0_r.
    apply not_le in Hlt'. apply (front_fin m es HN i e x He Hx) in Hlt'.
    assert (He12 : e_v1 e <> e_v2 e) by by eapply HL.
    unfold edge_okb in Hok. unfold step, ends. destruct b; apply andb_true_iff in Hok as [Hok1 Hok2].
    + unfold deg_takable, val in Hok1, Hok2. destruct Hlt' as [[-> Hf]|[-> Hf]].
      * rewrite Hc, Hf in Hok1. destruct (_ <=? _); [done|]. simpl in Hok1. rewrite Nat.eqb_refl. destruct (Nat.eqb_spec (e_v2 e) (e_v1 e)); [congruence|].
        by replace (D (e_v1 e) + (1 + 0)) with (D (e_v1 e) + 1) by lia.
      * rewrite Hc, Hf in Hok2. destruct (_ <=? _); [done|]. simpl in Hok2. rewrite Nat.eqb_refl. destruct (Nat.eqb_spec (e_v1 e) (e_v2 e)); [congruence|].
        by replace (D (e_v2 e) + (0 + 1)) with (D (e_v2 e) + 1) by lia.
    + unfold deg_leavable, val in Hok1, Hok2. rewrite Z.add_0_r. destruct Hlt' as [[-> Hf]|[-> Hf]].
      * rewrite Hc, Hf in Hok1. done.
      * rewrite Hc, Hf in Hok2. done.
Qed.

Lemma incr_ok c k mate w : mate !! k = Some w -> exists mate', deg_incr c k mate = Some mate' /\ length mate' = length mate /\
  mate' !! k = Some (match c with Some _ => wrap16 (w + 1) | None => w end) /\ forall j, j <> k -> mate' !! j = mate !! j.
Proof.
  intros Hw. unfold deg_incr. destruct c as [c|].
  - rewrite Hw. cbn [mbind option_bind]. eexists. split; [reflexivity|]. split_and!; [apply insert_length| |].
    + rewrite list_lookup_insert; [done|by eapply lookup_lt_Some].
    + intros j Hj. by rewrite list_lookup_insert_ne.
  - by exists mate.
Qed.

Lemma edge_post i e D mate b : es !! i = Some e -> Inv i D mate -> edge_okb D e b = true ->
  exists mate1, (if b then mt ← deg_incr (con (e_v1 e)) (e_v1 e - e_v0 e) mate; deg_incr (con (e_v2 e)) (e_v2 e - e_v0 e) mt else Some mate) = Some mate1 /\
  Post i (step D e b) (deg_clear e (e_v1 e - e_v0 e) (e_v2 e - e_v0 e) mate1).
Proof.
  intros He HI Hok. destruct (edge_data _ _ _ _ He HI) as (w1 & w2 & _ & _ & Hw1 & Hw2 & Ew1 & Ew2 & _ & _).
  destruct HI as (Hlen & [Hb Hb'] & Hcell). destruct (no_range _ _ HN _ _ He) as (R1 & R2 & R3 & R4). pose proof (HL _ _ He) as H12.
  pose proof (V0_at m es i e He) as EV. pose proof (max_frontier g _ _ He) as HM. fold M in HM.
  pose proof (lookup_lt_Some _ _ _ He) as Hlt. fold n in Hlt.
  assert (exists mate1, (if b then mt ← deg_incr (con (e_v1 e)) (e_v1 e - e_v0 e) mate; deg_incr (con (e_v2 e)) (e_v2 e - e_v0 e) mt else Some mate) = Some mate1 /\
    length mate1 = M /\ forall k x, mate1 !! k = Some x -> x = val (step D e b) (V0 m es i + k)) as (mate1 & Hm1 & Hl1 & Hc1).
  { destruct b.
    - assert (Hincr : forall x c, (x = e_v1 e \/ x = e_v2 e) -> con x = Some c -> wrap16 (val D x + 1) = D x + 1).
      { intros x c Hx Hc. unfold val. rewrite Hc. apply wrap16_id. pose proof (Hb x).
        destruct (HU x c) as [_ Hcap]; [lia|by apply con_in|]. unfold edge_okb in Hok. apply andb_true_iff in Hok as [Hok1 Hok2].
        unfold deg_takable, val in Hok1, Hok2. destruct Hx as [->| ->].
        - rewrite Hc in Hok1. destruct (Z.leb_spec (upperBound c) (D (e_v1 e))); [done|]. lia.
        - rewrite Hc in Hok2. destruct (Z.leb_spec (upperBound c) (D (e_v2 e))); [done|]. lia. }
      destruct (incr_ok (con (e_v1 e)) (e_v1 e - e_v0 e) mate w1 Hw1) as (mt & Emt & Hlmt & Hmt1 & Hmt2).
      rewrite Emt. cbn [mbind option_bind].
      destruct (incr_ok (con (e_v2 e)) (e_v2 e - e_v0 e) mt w2) as (mate1 & -> & Hl1 & Hm1 & Hm2); [rewrite Hmt2 by lia; done|].
      exists mate1. split_and!; [done|congruence|]. intros k x Hx. rewrite EV.
      destruct (decide (k = e_v2 e - e_v0 e)%nat) as [->|N2].
      { rewrite Hm1 in Hx. injection Hx as <-. replace (e_v0 e + (e_v2 e - e_v0 e))%nat with (e_v2 e) by lia.
        unfold val at 1, step, ends. rewrite Nat.eqb_refl. destruct (Nat.eqb_spec (e_v1 e) (e_v2 e)); [done|].
        destruct (con (e_v2 e)) as [c|] eqn:Ec; [|rewrite Ew2; unfold val; by rewrite Ec]. rewrite Ew2, (Hincr (e_v2 e) c) by (tauto || done). lia. }
      rewrite Hm2 in Hx by done. destruct (decide (k = e_v1 e - e_v0 e)%nat) as [->|N1].
      { rewrite Hmt1 in Hx. injection Hx as <-. replace (e_v0 e + (e_v1 e - e_v0 e))%nat with (e_v1 e) by lia.
        unfold val at 1, step, ends. rewrite Nat.eqb_refl. destruct (Nat.eqb_spec (e_v2 e) (e_v1 e)); [congruence|].
        destruct (con (e_v1 e)) as [c|] eqn:Ec; [|rewrite Ew1; unfold val; by rewrite Ec]. rewrite Ew1, (Hincr (e_v1 e) c) by (tauto || done). lia. }
      rewrite Hmt2 in Hx by done. rewrite (Hcell _ _ Hx), EV. unfold val, step, ends.
      destruct (Nat.eqb_spec (e_v1 e) (e_v0 e + k)); [lia|]. destruct (Nat.eqb_spec (e_v2 e) (e_v0 e + k)); [lia|].
      destruct (con (e_v0 e + k)); lia.
    - exists mate. split_and!; [done|done|]. intros k x Hx. rewrite (Hcell _ _ Hx). unfold val, step. destruct (con _); lia. }
  exists mate1. split; [done|]. split_and!.
  - unfold deg_clear. destruct (e_v1final e), (e_v2final e); by rewrite ?insert_length.
  - intros x. unfold step. pose proof (Hb x). pose proof (ends_range _ _ x He). destruct b; lia.
  - intros x Hx. unfold step. rewrite Hb' by done. destruct b; [|done]. unfold ends.
    destruct (Nat.eqb_spec (e_v1 e) x); [lia|]. destruct (Nat.eqb_spec (e_v2 e) x); lia.
  - intros k x Hx Hk. rewrite EV in Hk. apply lookup_lt_Some in Hx as Hkl.
    assert (length (deg_clear e (e_v1 e - e_v0 e) (e_v2 e - e_v0 e) mate1) = M) as Hcl by (unfold deg_clear; destruct (e_v1final e), (e_v2final e); by rewrite ?insert_length).
    assert (N1 : e_v1final e = true -> k <> (e_v1 e - e_v0 e)%nat).
    { intros Hf ->. pose proof (proj2 (front_fin m es HN i e (e_v1 e) He ltac:(lia)) ltac:(tauto)). lia. }
    assert (N2 : e_v2final e = true -> k <> (e_v2 e - e_v0 e)%nat).
    { intros Hf ->. pose proof (proj2 (front_fin m es HN i e (e_v2 e) He ltac:(lia)) ltac:(tauto)). lia. }
    unfold deg_clear in Hx. apply Hc1. destruct (e_v1final e), (e_v2final e); rewrite ?list_lookup_insert_ne in Hx by (intros E; symmetry in E; revert E; tauto); done.
Qed.

Lemma shift_ok i e e' D mate : es !! i = Some e -> es !! S i = Some e' -> Post i D mate ->
  exists mate', deg_shift M mate (Z.of_nat (e_v0 e') - Z.of_nat (e_v0 e)) = Some mate' /\ Inv (S i) D mate'.
Proof.
  intros He He' (H1 & H2 & H3 & H4). pose proof (lookup_lt_Some _ _ _ He) as Hlt.
  pose proof (V0_mono m es HN i Hlt) as Hmono. pose proof (V0_step m es HN M i (fun a e => max_frontier g a e) Hlt) as Hstep.
  rewrite (V0_at m es _ _ He), (V0_at m es _ _ He') in *. unfold deg_shift.
  destruct (Z.ltb_spec (Z.of_nat (e_v0 e') - Z.of_nat (e_v0 e)) 0); [lia|].
  destruct (Z.ltb_spec (Z.of_nat M) (Z.of_nat (e_v0 e') - Z.of_nat (e_v0 e))); [lia|]. cbn [orb].
  replace (Z.to_nat (Z.of_nat (e_v0 e') - Z.of_nat (e_v0 e))) with (e_v0 e' - e_v0 e)%nat by lia.
  set (d := (e_v0 e' - e_v0 e)%nat) in *. eexists. split; [reflexivity|]. split_and!.
  - rewrite app_length, drop_length, replicate_length. lia.
  - split; [done|]. intros x Hx. apply H3. rewrite (V0_at m es _ _ He') in Hx. lia.
  - intros k x Hx. rewrite (V0_at m es _ _ He'). rewrite lookup_app in Hx. destruct (drop d mate !! k) as [y|] eqn:Ey.
    + injection Hx as ->. rewrite lookup_drop in Ey. rewrite (H4 _ _ Ey) by lia. f_equal. lia.
    + apply lookup_replicate in Hx as [-> Hx]. apply lookup_ge_None in Ey. rewrite drop_length in *. unfold val. destruct (con _); [|done].
      symmetry. apply H3. lia.
Qed.

Definition Sem (v : vec) (j : nat) : Prop := forall D mate, Inv j D mate ->
  zdd_eval (deg_spec G) (n - j) (Z.of_nat n - Z.of_nat j) mate v = true <-> Phi v j D.
Definition outcome (i : nat) (r : Z * list Z) : Prop :=
  fst r = 0 \/ fst r = -1 \/ exists j D, (i <= j < n)%nat /\ fst r = Z.of_nat n - Z.of_nat j /\ Inv j D (snd r).

Lemma Phi_end v D : Phi v n D.
Proof. intros x c Hx. unfold n in Hx. rewrite V0_end in Hx. lia. Qed.
Lemma zdd_eval_one sp s v l : (forall k, (1 <= k <= l)%nat -> v k = 0%nat) -> zdd_eval sp l (-1) s v = true.
Proof.
  induction l as [|l IH]; intros H; cbn [zdd_eval]; [done|]. destruct (Z.eqb_spec (-1) (Z.of_nat (S l))); [lia|].
  rewrite H by lia. cbn. apply IH. intros k Hk. apply H. lia.
Qed.

Lemma look_ok : forall r i D mate, r = (n - i)%nat -> (i < n)%nat -> Inv i D mate ->
  exists res, deg_look G (n - i) i mate = Some res /\ outcome i res /\
  forall v, (forall j, (i <= j < n)%nat -> Sem v j) -> zdd_eval (deg_spec G) (n - i) (fst res) (snd res) v = true <-> Phi v i D.
Proof.
  induction r as [|r IH]; intros i D mate Hr Hi HI; [lia|].
  destruct (lookup_lt_is_Some_2 es i Hi) as [e He]. pose proof (edge_data _ _ _ _ He HI) as (w1 & w2 & Hk1 & Hk2 & Hw1 & Hw2 & Ew1 & Ew2 & Hc1 & Hc2).
  rewrite <- Hr. cbn [deg_look]. change (g_edgeInfo (dc_graph G)) with es. change (dc_n G) with n. change (dc_mateSize G) with M.
  rewrite He. cbn [mbind option_bind]. rewrite Hk1, Hk2. cbn [mbind option_bind]. rewrite Hw1, Hw2. cbn [mbind option_bind]. rewrite Hc1, Hc2. cbn [mbind option_bind].
  rewrite Ew1, Ew2.
  pose proof (proj1 (proj2 HI)) as HB.
  change (deg_takable (con (e_v1 e)) (val D (e_v1 e)) (e_v1final e) && deg_takable (con (e_v2 e)) (val D (e_v2 e)) (e_v2final e)) with (edge_okb D e true).
  destruct (edge_okb D e true) eqn:Ht.
  { eexists. split; [reflexivity|]. cbn [fst snd]. split.
    - right; right. exists i, D. split_and!; [lia|lia|done|done].
    - intros v HS. rewrite Hr. apply HS; [lia|done]. }
  assert (Hv1 : forall v, (v (n - i) =? 0)%nat = false -> ~ Phi v i D) by (intros v Hv; by eapply edge_not_ok).
  destruct (edge_okb D e false) eqn:Hl.
  - pose proof Hl as Hl'. unfold edge_okb in Hl'. apply andb_true_iff in Hl' as [-> ->]. cbn [negb].
    destruct (edge_post i e D mate false He HI Hl) as (mate1 & Em & HP). injection Em as <-.
    destruct (Nat.eqb_spec (S i) n) as [En|En].
    + eexists. split; [reflexivity|]. cbn [fst snd]. split; [by right; left|]. intros v _. assert (r = 0%nat) as -> by lia. cbn [zdd_eval].
      destruct (Z.eqb_spec (-1) (Z.of_nat 1)); [lia|]. replace (n - i)%nat with 1%nat in * by lia. destruct (v 1%nat =? 0)%nat eqn:Hv.
      * split; [intros _|done]. apply (edge_ok_phi i e D v false He HB Hl); [by replace (n - i)%nat with 1%nat by lia|]. rewrite En. apply Phi_end.
      * split; [done|]. intros HP'. exfalso. by apply (Hv1 v).
    + destruct (lookup_lt_is_Some_2 es (S i)) as [e' He']; [fold n; lia|]. rewrite He'. cbn [mbind option_bind].
      destruct (shift_ok i e e' _ _ He He' HP) as (mate' & -> & HI'). cbn [mbind option_bind].
      destruct (IH (S i) _ mate' ltac:(lia) ltac:(lia) HI') as (res & Hres & Hout & Hsem).
      replace r with (n - S i)%nat by lia. exists res. split; [done|]. split.
      * destruct Hout as [?|[?|(j & D' & Hj & ?)]]; [by left|by right; left|]. right; right. exists j, D'. split; [lia|done].
      * intros v HS. assert (Hne : fst res =? Z.of_nat (S (n - S i)) = false).
        { apply Z.eqb_neq. destruct Hout as [->|[->|(j & D' & Hj & -> & _)]]; lia. }
        cbn [zdd_eval]. rewrite Hne. replace (S (n - S i)) with (n - i)%nat by lia. destruct (v (n - i)%nat =? 0)%nat eqn:Hv.
        -- rewrite (edge_ok_phi i e D v false He HB Hl Hv). apply Hsem. intros j Hj. apply HS. lia.
        -- split; [done|]. intros HP'. exfalso. by apply (Hv1 v).
  - assert (Hv0 : forall v, ~ Phi v i D). { intros v. destruct (v (n - i) =? 0)%nat eqn:Hv; [by eapply edge_not_ok|by apply Hv1]. }
    exists (0, mate). split.
    + unfold edge_okb in Hl. apply andb_false_iff in Hl as [-> | ->]; [done|]. by destruct (deg_leavable _ _ _).
    + split; [by left|]. intros v _. cbn [fst snd]. rewrite zdd_eval_zero. split; [done|]. intros HP. by apply Hv0 in HP.
Qed.

Lemma child_ok i D mate b : (i < n)%nat -> Inv i D mate ->
  exists res, deg_child G mate (n - i) b = Some res /\ outcome (S i) res /\
  (dc_lookahead G = false -> fst res = 0 \/ (S i < n)%nat /\ fst res = Z.of_nat n - Z.of_nat (S i) \/ S i = n /\ fst res = -1) /\
  forall v, (v (n - i) =? 0)%nat = negb b -> (forall j, (i < j < n)%nat -> Sem v j) -> zdd_eval (deg_spec G) (n - S i) (fst res) (snd res) v = true <-> Phi v i D.
Proof.
  intros Hi HI.
  destruct (lookup_lt_is_Some_2 es i Hi) as [e He]. pose proof (edge_data _ _ _ _ He HI) as (w1 & w2 & Hk1 & Hk2 & Hw1 & Hw2 & Ew1 & Ew2 & Hc1 & Hc2).
  unfold deg_child. change (g_edgeInfo (dc_graph G)) with es. change (dc_n G) with n. change (dc_mateSize G) with M.
  destruct (Nat.ltb_spec (n - i) 1); [lia|]. destruct (Nat.ltb_spec n (n - i)); [lia|]. cbn [orb]. replace (n - (n - i))%nat with i by lia.
  rewrite He. cbn [mbind option_bind]. rewrite Hk1, Hk2. cbn [mbind option_bind]. rewrite Hw1, Hw2. cbn [mbind option_bind]. rewrite Hc1, Hc2. cbn [mbind option_bind].
  rewrite Ew1, Ew2. pose proof (proj1 (proj2 HI)) as HB.
  change (if b then deg_takable (con (e_v1 e)) (val D (e_v1 e)) (e_v1final e) && deg_takable (con (e_v2 e)) (val D (e_v2 e)) (e_v2final e)
          else deg_leavable (con (e_v1 e)) (val D (e_v1 e)) (e_v1final e) && deg_leavable (con (e_v2 e)) (val D (e_v2 e)) (e_v2final e)) with (edge_okb D e b).
  destruct (edge_okb D e b) eqn:Hok; cbn [negb].
  - destruct (edge_post i e D mate b He HI Hok) as (mate1 & -> & HP). cbn [mbind option_bind].
    destruct (Nat.eqb_spec (S i) n) as [En|En].
    + eexists. split; [reflexivity|]. cbn [fst snd]. split; [by right; left|]. split; [tauto|]. intros v Hv _. replace (n - S i)%nat with 0%nat by lia. cbn [zdd_eval].
      split; [intros _|done]. apply (edge_ok_phi i e D v b He HB Hok Hv). rewrite En. apply Phi_end.
    + destruct (lookup_lt_is_Some_2 es (S i)) as [e' He']; [fold n; lia|]. rewrite He'. cbn [mbind option_bind].
      destruct (shift_ok i e e' _ _ He He' HP) as (mate' & -> & HI'). cbn [mbind option_bind]. destruct (dc_lookahead G).
      * destruct (look_ok (n - S i) (S i) _ mate' eq_refl ltac:(lia) HI') as (res & Hres & Hout & Hsem). exists res. split; [done|]. split; [done|]. split; [done|].
        intros v Hv HS. rewrite (edge_ok_phi i e D v b He HB Hok Hv). apply Hsem. intros j Hj. apply HS. lia.
      * eexists. split; [reflexivity|]. cbn [fst snd]. split; [right; right; exists (S i), (step D e b); split_and!; [lia|lia|done|done]|].
        split; [intros _; right; left; split; [lia|done]|]. intros v Hv HS. rewrite (edge_ok_phi i e D v b He HB Hok Hv). apply HS; [lia|done].
  - eexists. split; [reflexivity|]. cbn [fst snd]. split; [by left|]. split; [by left|]. intros v Hv _. rewrite zdd_eval_zero. split; [done|].
    intros HP. exfalso. by apply (edge_not_ok i e D v b He HB Hok Hv).
Qed.

Lemma all_sem v : forall k j, (n - j <= k)%nat -> (j < n)%nat -> Sem v j.
Proof.
  induction k as [|k IH]; intros j Hk Hj; [lia|]. intros D mate HI. replace (n - j)%nat with (S (n - S j)) by lia. cbn [zdd_eval].
  replace (Z.of_nat n - Z.of_nat j =? Z.of_nat (S (n - S j))) with true by (symmetry; apply Z.eqb_eq; lia).
  cbn [deg_spec get_child]. fold (deg_spec G). replace (Z.to_nat (Z.of_nat n - Z.of_nat j)) with (n - j)%nat by lia.
  replace (S (n - S j)) with (n - j)%nat by lia.
  destruct (child_ok j D mate (negb (v (n - j) =? 0)%nat) Hj HI) as (res & -> & Hout & _ & Hsem). unfold default, id. cbn zeta. apply Hsem.
  - by rewrite negb_involutive.
  - intros j' Hj'. apply IH; lia.
Qed.

Lemma Inv_root : (0 < n)%nat -> Inv 0 (fun _ => 0) (replicate M 0).
Proof.
  intros Hn. split_and!; [apply replicate_length|split; [lia|done]|]. intros k x Hx. apply lookup_replicate in Hx as [-> _]. unfold val. by destruct (con _).
Qed.

Lemma deg_sem v : (0 < n)%nat -> zdd_sem (deg_spec G) n v = true <-> degrees_ok g (dc_cons G) v.
Proof.
  intros Hn. unfold zdd_sem. cbn [deg_spec get_root]. fold (deg_spec G). unfold deg_root. cbn [fst snd].
  pose proof (all_sem v n 0 ltac:(lia) Hn _ _ (Inv_root Hn)) as H. rewrite Nat.sub_0_r, Z.sub_0_r in H. change (dc_n G) with n. change (dc_mateSize G) with M. rewrite H.
  unfold Phi, degrees_ok. rewrite drop_0. destruct (lookup_lt_is_Some_2 es 0 Hn) as [e He].
  pose proof (front_first m es HN 0 e He eq_refl) as E1. rewrite (V0_at m es _ _ He), E1. fold m es. split.
  - intros HP x c Hx Hc. apply (HP x c Hx). unfold con. by rewrite Hc.
  - intros HP x c Hx Hc. rewrite Z.add_0_l. apply (HP x c Hx). by apply con_in.
Qed.

(** reachable states *)
Lemma deg_reach l s : reach (deg_spec G) l s -> exists j D, (j < n)%nat /\ l = Z.of_nat n - Z.of_nat j /\ Inv j D s.
Proof.
  induction 1 as [H|l s b Hr (j & D & Hj & -> & HI) Hb Hp].
  - cbn [deg_spec get_root deg_root fst snd] in *. exists 0%nat, (fun _ => 0). change (dc_n G) with n in *. split_and!; [lia|lia|]. apply Inv_root. lia.
  - cbn [deg_spec get_child] in *. replace (Z.to_nat (Z.of_nat n - Z.of_nat j)) with (n - j)%nat in * by lia.
    destruct (child_ok j D s (negb (b =? 0)%nat) Hj HI) as (res & Eres & Hout & _). rewrite Eres in *. cbn [default id] in *. unfold id in *.
    assert (Hp' : 0 < fst res) by exact Hp. clear Hp.
    destruct Hout as [E|[E|(j' & D' & Hj' & E & HI')]]; [lia|lia|]. exists j', D'. split_and!; [lia|done|done].
Qed.
Lemma deg_safe l s b : reach (deg_spec G) l s -> is_Some (deg_child G s (Z.to_nat l) b).
Proof.
  intros (j & D & Hj & -> & HI)%deg_reach. replace (Z.to_nat (Z.of_nat n - Z.of_nat j)) with (n - j)%nat by lia.
  destruct (child_ok j D s b Hj HI) as (res & -> & _). by eexists.
Qed.
Lemma deg_levels l s b : reach (deg_spec G) l s -> -1 <= fst (get_child (deg_spec G) s l b) < l.
Proof.
  intros Hr. pose proof (deg_reach _ _ Hr) as (j & D & Hj & -> & HI). cbn [deg_spec get_child].
  replace (Z.to_nat (Z.of_nat n - Z.of_nat j)) with (n - j)%nat by lia.
  destruct (child_ok j D s (negb (b =? 0)%nat) Hj HI) as (res & -> & Hout & _). unfold default, id.
  change (-1 <= fst res < Z.of_nat n - Z.of_nat j).
  destruct Hout as [->|[->|(j' & D' & Hj' & -> & _)]]; lia.
Qed.

(** without lookahead every level is visited: both readings agree *)
Lemma deg_readings v : dc_lookahead G = false -> forall k j D mate, (n - j <= k)%nat -> (j < n)%nat -> Inv j D mate ->
  bdd_eval (deg_spec G) (n - j) (Z.of_nat n - Z.of_nat j) mate v = zdd_eval (deg_spec G) (n - j) (Z.of_nat n - Z.of_nat j) mate v.
Proof.
  intros Hla. induction k as [|k IH]; intros j D mate Hk Hj HI; [lia|]. replace (n - j)%nat with (S (n - S j)) by lia. cbn [zdd_eval bdd_eval].
  replace (Z.of_nat n - Z.of_nat j =? Z.of_nat (S (n - S j))) with true by (symmetry; apply Z.eqb_eq; lia).
  cbn [deg_spec get_child]. fold (deg_spec G). replace (Z.to_nat (Z.of_nat n - Z.of_nat j)) with (n - j)%nat by lia.
  replace (S (n - S j)) with (n - j)%nat by lia.
  destruct (child_ok j D mate (negb (v (n - j) =? 0)%nat) Hj HI) as ([c s] & -> & Hout & Hcode & _). unfold default, id. cbn zeta. cbn [fst snd] in *.
  destruct (Hcode Hla) as [->|[[Hs Hc]|[Hs ->]]].
  - by rewrite bdd_eval_zero, zdd_eval_zero.
  - rewrite Hc. destruct Hout as [E|[E|(j' & D' & Hj' & E & HI')]]; cbn [fst snd] in *; [lia|lia|]. assert (j' = S j) as -> by lia. cbn [snd] in *. eapply IH; [lia|lia|done].
  - rewrite <- Hs. replace (S j - S j)%nat with 0%nat by lia. done.
Qed.
Lemma deg_sem_bdd v : dc_lookahead G = false -> (0 < n)%nat -> bdd_sem (deg_spec G) n v = zdd_sem (deg_spec G) n v.
Proof.
  intros Hla Hn. unfold zdd_sem, bdd_sem. cbn [deg_spec get_root]. fold (deg_spec G). unfold deg_root. cbn [fst snd].
  pose proof (deg_readings v Hla n 0 _ _ ltac:(lia) Hn (Inv_root Hn)) as H. by rewrite Nat.sub_0_r, Z.sub_0_r in H.
Qed.
End degree.

Lemma deg_congr G : spec_congr (deg_spec G).
Proof.
  constructor; cbn [deg_spec equal_to].
  - intros. by apply bool_decide_eq_true.
  - intros. apply bool_decide_ext. split; congruence.
  - intros l s s' s'' _ _ _ H1 H2. apply bool_decide_eq_true in H1, H2. subst. by apply bool_decide_eq_true.
  - intros l s s' b _ _ _ H. apply bool_decide_eq_true in H. subst. split; [done|]. intros _. by apply bool_decide_eq_true.
Qed.
Lemma deg_shareable G : shareable (deg_spec G).
Proof.
  split; cbn [deg_spec equal_to hash_code].
  - intros. apply bool_decide_ext. split; congruence.
  - intros l s s' H. apply bool_decide_eq_true in H. by subst.
Qed.
