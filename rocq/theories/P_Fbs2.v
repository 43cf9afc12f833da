(** FrontierBasedSearch: the cells as a representation of the components, and merging two of them. *)
From stdpp Require Import strings gmap.
From Verif Require Import Base Sem P_Size M_Graph M_Degree S_Degree P_Degree M_Fbs P_Fbs1.
Local Open Scope Z_scope.

(** [f] numbers the components; [cx x] is the color of the component of x (0: none), [ex x] tells if it has an edge *)
Section rep.
Context (m v0 W : nat) (Hm : Z.of_nat m <= 32766) (HW : Z.of_nat W <= 32767) (Hv0 : (1 <= v0)%nat).
Notation ix x := (Z.of_nat x - Z.of_nat v0).
Notation inr x := (v0 <= x < v0 + W)%nat.

(** the first member of the component of x that is still there *)
Definition hd_of (f : nat -> nat) (x h : nat) : Prop :=
  (v0 <= h <= x)%nat /\ f h = f x /\ forall z, (v0 <= z < h)%nat -> f z <> f x.
(** the last vertex of color k *)
Definition istgt (cx : nat -> nat) (k t : nat) : Prop :=
  (v0 <= t <= m)%nat /\ cx t = k /\ forall z, (t < z <= m)%nat -> cx z <> k.
Definition hval (cx : nat -> nat) (ex : nat -> bool) (x : nat) (w : Z) : Prop :=
  (cx x <> 0%nat /\ exists t, istgt cx (cx x) t /\ (x <= t)%nat /\ w = Z.of_nat t - Z.of_nat x) \/
  (cx x = 0%nat /\ w = if ex x then EDGE_COMPONENT else UNCOLORED).
Definition cellrep (f cx : nat -> nat) (ex : nat -> bool) (x : nat) (c : fcell) : Prop :=
  isnext (fun y => f y = f x) x (nxt c) /\
  exists h, hd_of f x h /\ ((h = x /\ hval cx ex x (hoc c)) \/ ((h < x)%nat /\ hoc c = Z.of_nat h - Z.of_nat x)).
Definition Rep (f cx : nat -> nat) (ex : nat -> bool) (M : nat -> fcell) : Prop :=
  forall x, (v0 <= x <= m)%nat -> cellrep f cx ex x (M x).

(** conditions on the labels *)
Record Lab (f cx : nat -> nat) (ex : nat -> bool) : Prop := {
  lb_in : forall x y, f x = f y -> x <> y -> (x <= m)%nat /\ (x < v0 + W)%nat;
  lb_c : forall x y, f x = f y -> cx x = cx y;
  lb_e : forall x y, f x = f y -> ex x = ex y
}.

Section read.
Context (f cx : nat -> nat) (ex : nat -> bool) (M : nat -> fcell) (ms : cells).
Context (HL : Lab f cx ex) (HR : Rep f cx ex M) (HA : farr v0 W M ms).

Lemma hd_uniq x y h h' : hd_of f x h -> hd_of f y h' -> f x = f y -> h = h'.
Proof.
  intros (R1 & E1 & N1) (R2 & E2 & N2) E. destruct (lt_eq_lt_dec h h') as [[?|?]|?]; [|done|].
  - destruct (N2 h); [lia|congruence].
  - destruct (N1 h'); [lia|congruence].
Qed.
Lemma hd_self x h : hd_of f x h -> hd_of f h h.
Proof. intros (R & E & N). split_and!; [lia|lia|done|]. rewrite E. done. Qed.
Lemma tgt_uniq k t t' : istgt cx k t -> istgt cx k t' -> t = t'.
Proof.
  intros (R1 & E1 & N1) (R2 & E2 & N2). destruct (lt_eq_lt_dec t t') as [[?|?]|?]; [|done|].
  - destruct (N1 t'); [lia|done].
  - destruct (N2 t); [lia|done].
Qed.
Lemma hval_pos x w : hval cx ex x w -> 0 <= w <= 32767.
Proof. intros [(_ & t & T & Hx & ->)|[_ ->]]; [destruct T; lia|]. destruct (ex x); done. Qed.

Lemma cell_head x h : (v0 <= x <= m)%nat -> hd_of f x h ->
  (h = x /\ hval cx ex x (hoc (M x))) \/ ((h < x)%nat /\ hoc (M x) = Z.of_nat h - Z.of_nat x).
Proof.
  intros Hx Hh. destruct (HR x Hx) as (_ & h' & Hh' & H). by rewrite (hd_uniq x x h h' Hh Hh' eq_refl).
Qed.
Lemma rd_head x : (v0 <= x <= m)%nat -> inr x -> exists h, hd_of f x h /\ fhead ms (ix x) = Some (ix h).
Proof.
  intros Hx Hr. destruct (HR x Hx) as (_ & h & Hh & H). exists h. split; [done|]. unfold fhead. rewrite (farr_get v0 W M ms x HA Hr). cbn [mbind option_bind]. f_equal.
  unfold isHead. destruct H as [[-> H]|[H1 H2]].
  - by rewrite (proj2 (Z.leb_le _ _)) by (by apply hval_pos in H as [? _]).
  - rewrite (proj2 (Z.leb_gt _ _)) by lia. lia.
Qed.
Lemma rd_head_at x h : (v0 <= x <= m)%nat -> inr x -> hd_of f x h -> fhead ms (ix x) = Some (ix h).
Proof. intros Hx Hr Hh. destruct (rd_head x Hx Hr) as (h' & Hh' & ->). by rewrite (hd_uniq x x h h' Hh Hh' eq_refl). Qed.
Lemma hval_at x h : (v0 <= x <= m)%nat -> hd_of f x h -> hval cx ex h (hoc (M h)) /\ (v0 <= h <= x)%nat /\ cx h = cx x /\ ex h = ex x.
Proof.
  intros Hx Hh. pose proof Hh as (R & E & _). split_and!; [|lia|lia|by apply (lb_c _ _ _ HL)|by apply (lb_e _ _ _ HL)].
  destruct (cell_head h h ltac:(lia) (hd_self _ _ Hh)) as [[_ H]|[H _]]; [done|lia].
Qed.
Lemma rd_hoc x : (v0 <= x <= m)%nat -> inr x -> exists h, hd_of f x h /\ head_hoc ms (ix x) = Some (hoc (M h)) /\ hval cx ex h (hoc (M h)).
Proof.
  intros Hx Hr. destruct (rd_head x Hx Hr) as (h & Hh & E). exists h. destruct (hval_at x h Hx Hh) as (Hv & R & _). split_and!; [done| |done].
  unfold head_hoc. rewrite E. cbn [mbind option_bind]. by rewrite (farr_get v0 W M ms h HA) by lia.
Qed.
Lemma rd_colored x : (v0 <= x <= m)%nat -> inr x -> isColored ms (ix x) = Some (bool_decide (cx x <> 0%nat)).
Proof.
  intros Hx Hr. destruct (rd_hoc x Hx Hr) as (h & Hh & E & Hv). unfold isColored. rewrite E. cbn [mbind option_bind]. f_equal.
  destruct (hval_at x h Hx Hh) as (_ & R & <- & _). destruct Hv as [(Hc & t & T & Ht & ->)|[Hc ->]].
  - rewrite bool_decide_true by done. apply Z.ltb_lt. unfold UNCOLORED. destruct T. lia.
  - rewrite bool_decide_false by (intros ?; done). apply Z.ltb_ge. by destruct (ex h).
Qed.
Lemma rd_edge x : (v0 <= x <= m)%nat -> inr x -> cx x = 0%nat -> isEdgeComponent ms (ix x) = Some (ex x).
Proof.
  intros Hx Hr H0. destruct (rd_hoc x Hx Hr) as (h & Hh & E & Hv). unfold isEdgeComponent. rewrite E. cbn [mbind option_bind]. f_equal.
  destruct (hval_at x h Hx Hh) as (_ & R & Ec & <-). destruct Hv as [(Hc & _)|[Hc ->]]; [congruence|]. by destruct (ex h).
Qed.
(** where the color pointer points to *)
Lemma rd_cptr x : (v0 <= x <= m)%nat -> inr x -> exists p, color_ptr ms (ix x) = Some p /\
  ((cx x <> 0%nat /\ exists t, istgt cx (cx x) t /\ p = ix t) \/ (cx x = 0%nat /\ 32767 - Z.of_nat v0 <= p)).
Proof.
  intros Hx Hr. destruct (rd_head x Hx Hr) as (h & Hh & E). destruct (hval_at x h Hx Hh) as (Hv & R & Ec & _).
  unfold color_ptr. rewrite E. cbn [mbind option_bind]. rewrite (farr_get v0 W M ms h HA) by lia. cbn [mbind option_bind].
  eexists. split; [done|]. rewrite <- Ec. destruct Hv as [(Hc & t & T & Ht & ->)|[Hc ->]].
  - left. split; [done|]. exists t. split; [done|lia].
  - right. split; [done|]. destruct (ex h); unfold EDGE_COMPONENT, UNCOLORED; lia.
Qed.
Lemma rd_same x y : (v0 <= x <= m)%nat -> inr x -> (v0 <= y <= m)%nat -> inr y -> cx x <> 0%nat -> cx y <> 0%nat ->
  hasSameColorAs ms (ix x) (ix y) = Some (bool_decide (cx x = cx y)).
Proof.
  intros Hx Hrx Hy Hry H1 H2. unfold hasSameColorAs. destruct (rd_cptr x Hx Hrx) as (p & -> & [(_ & t & T & ->)|[? _]]); [|done].
  destruct (rd_cptr y Hy Hry) as (p & -> & [(_ & t' & T' & ->)|[? _]]); [|done]. cbn [mbind option_bind]. f_equal.
  destruct (decide (cx x = cx y)) as [E|E].
  - rewrite bool_decide_true by done. rewrite E in T. rewrite (tgt_uniq _ _ _ T T'). apply Z.eqb_refl.
  - rewrite bool_decide_false by done. apply Z.eqb_neq. intros Et. assert (t = t') as -> by lia. destruct T as (_ & T & _), T' as (_ & T' & _). congruence.
Qed.
Lemma rd_same_some x y : (v0 <= x <= m)%nat -> inr x -> (v0 <= y <= m)%nat -> inr y -> exists b, hasSameColorAs ms (ix x) (ix y) = Some b.
Proof.
  intros Hx Hrx Hy Hry. unfold hasSameColorAs. destruct (rd_cptr x Hx Hrx) as (p & -> & _). destruct (rd_cptr y Hy Hry) as (q & -> & _).
  cbn [mbind option_bind]. by eexists.
Qed.
Lemma rd_tail x : (v0 <= x <= m)%nat -> inr x -> exists b, isColoredTail ms (ix x) = Some b /\ (b = true <-> cx x <> 0%nat /\ istgt cx (cx x) x).
Proof.
  intros Hx Hr. unfold isColoredTail. rewrite (farr_get v0 W M ms x HA Hr). cbn [mbind option_bind].
  destruct (HR x Hx) as (_ & h & Hh & [[-> Hv]|[Hlt Hho]]).
  - pose proof (hval_pos _ _ Hv) as Hp. destruct (Z.eqb_spec (hoc (M x)) 0) as [E0|E0].
    + eexists. split; [done|]. split; [intros _|done]. destruct Hv as [(Hc & t & T & Ht & Ew)|[Hc Ew]].
      * split; [done|]. assert (t = x) as -> by lia. done.
      * rewrite E0 in Ew. by destruct (ex x).
    + rewrite (proj2 (Z.ltb_ge _ _)) by lia. eexists. split; [done|]. split; [done|]. intros [Hc T].
      destruct Hv as [(_ & t & T' & Ht & Ew)|[? _]]; [|done]. assert (t = x) by (by eapply tgt_uniq). lia.
  - rewrite (proj2 (Z.eqb_neq _ _)) by lia. rewrite (proj2 (Z.ltb_lt _ _)) by lia. destruct (hval_at x h Hx Hh) as (Hv & R & Ec & _).
    replace (ix x + hoc (M x)) with (ix h) by lia. rewrite (farr_get v0 W M ms h HA) by lia. cbn [mbind option_bind]. eexists. split; [done|].
    rewrite Z.eqb_eq. rewrite Hho. destruct Hv as [(Hc & t & T & Ht & ->)|[Hc ->]].
    + split; [intros Ew; assert (t = x) as -> by lia; split; [congruence|]; by rewrite <- Ec|]. intros [_ T']. rewrite Ec in T. rewrite (tgt_uniq _ _ _ T T'). lia.
    + split; [|intros [? _]; congruence]. intros Ew. exfalso. destruct (ex h); unfold EDGE_COMPONENT, UNCOLORED in Ew; lia.
Qed.
Lemma rd_isHead x : (v0 <= x <= m)%nat -> isHead (M x) = true <-> hd_of f x x.
Proof.
  intros Hx. unfold isHead. rewrite Z.leb_le. destruct (HR x Hx) as (_ & h & Hh & [[-> Hv]|[Hlt Hho]]).
  - split; [done|]. intros _. by apply hval_pos in Hv as [? _].
  - split; [lia|]. intros H. pose proof (hd_uniq x x x h H Hh eq_refl). lia.
Qed.
Lemma rd_isTail x : (v0 <= x <= m)%nat -> isTail (M x) = true <-> forall y, (x < y)%nat -> f y <> f x.
Proof.
  intros Hx. unfold isTail. rewrite Z.eqb_eq. destruct (HR x Hx) as (Hn & _). destruct Hn as [[-> Hno]|(y & Hy & HQ & Hno & ->)]; [done|].
  split; [lia|]. intros H. by destruct (H y Hy).
Qed.
Lemma rd_isolated x : (v0 <= x <= m)%nat -> isIsolated (M x) = true <-> forall y, (v0 <= y)%nat -> f y = f x -> y = x.
Proof.
  intros Hx. unfold isIsolated. rewrite andb_true_iff, rd_isHead, rd_isTail by done. split.
  - intros [(_ & _ & H1) H2] y Hy E. destruct (lt_eq_lt_dec y x) as [[?|?]|?]; [|done|].
    + destruct (H1 y); [lia|done].
    + by destruct (H2 y).
  - intros H. split; [split_and!; [lia|lia|done|]|].
    + intros z Hz E. apply H in E; lia.
    + intros y Hy E. apply H in E; lia.
Qed.
Lemma rd_nxt x : (v0 <= x <= m)%nat -> isnext (fun y => f y = f x) x (nxt (M x)).
Proof. intros Hx. by destruct (HR x Hx). Qed.
Lemma chain_from x y : (v0 <= x <= m)%nat -> inr x -> (v0 <= y)%nat -> chain v0 W (fun z => f z = f x) M y.
Proof.
  intros Hx Hr Hy z Ez Hz. assert ((z <= m)%nat /\ (z < v0 + W)%nat) as [H1 H2].
  { destruct (decide (z = x)) as [->|Hne]; [lia|]. by apply (lb_in _ _ _ HL z x). }
  split; [lia|]. destruct (HR z ltac:(lia)) as [Hn _]. eapply isnext_iff; [|exact Hn]. intros w _. cbn. by rewrite Ez.
Qed.
Lemma rd_hd_exists x : (v0 <= x <= m)%nat -> exists h, hd_of f x h.
Proof. intros Hx. destruct (HR x Hx) as (_ & h & Hh & _). by exists h. Qed.
Lemma rd_tgt x : (v0 <= x <= m)%nat -> cx x <> 0%nat -> exists t, istgt cx (cx x) t.
Proof.
  intros Hx Hc. destruct (rd_hd_exists x Hx) as [h Hh]. destruct (hval_at x h Hx Hh) as (Hv & R & Ec & _).
  destruct Hv as [(_ & t & T & _)|[? _]]; [exists t; by rewrite <- Ec|congruence].
Qed.
End read.

(** ** merging two lists *)
Section merge.
Context (f cx : nat -> nat) (ex : nat -> bool) (M : nat -> fcell) (ms : cells) (p1 p2 : nat).
Context (HL : Lab f cx ex) (HR : Rep f cx ex M) (HA : farr v0 W M ms).
Context (Hp1 : (v0 <= p1 <= m)%nat) (Hr1 : inr p1) (Hp2 : (v0 <= p2 <= m)%nat) (Hr2 : inr p2).
Context (Hh1 : hd_of f p1 p1) (Hh2 : hd_of f p2 p2) (Hlt : (p1 < p2)%nat).
Context (Hcol : cx p1 = 0%nat \/ cx p2 = 0%nat \/ cx p1 = cx p2).
Let U x := f x = f p1 \/ f x = f p2.
Let K := Nat.max (cx p1) (cx p2).

Lemma mg_ne : f p1 <> f p2.
Proof. intros E. pose proof (hd_uniq f p1 p2 p1 p2 Hh1 Hh2 E). lia. Qed.

Lemma mg_color : exists b ms1 w, merge_color ms (ix p1) (ix p2) = Some (b, ms1) /\ farr v0 W (fupd M p1 (FCell w (nxt (M p1)))) ms1 /\
  ((b = false /\ ((cx p1 <> 0%nat /\ cx p1 = cx p2 /\ w = hoc (M p1)) \/ (cx p1 = 0%nat /\ cx p2 = 0%nat /\ w = EDGE_COMPONENT))) \/
   (b = true /\ K <> 0%nat /\ (cx p1 = 0%nat \/ cx p2 = 0%nat) /\ exists t, istgt cx K t /\ (p1 <= t)%nat /\ w = Z.of_nat t - Z.of_nat p1)).
Proof.
  assert (farr v0 W (fupd M p1 (FCell (hoc (M p1)) (nxt (M p1)))) ms) as HA0.
  { eapply farr_ext; [|exact HA]. intros x _. unfold fupd. destruct (Nat.eqb_spec x p1) as [->|]; [by destruct (M p1)|done]. }
  unfold merge_color. rewrite (farr_get v0 W M ms p1 HA Hr1). cbn [mbind option_bind]. rewrite (farr_get v0 W M ms p2 HA Hr2). cbn [mbind option_bind].
  destruct (hval_at f cx ex M HL HR p1 p1 Hp1 Hh1) as (Hv1 & _). destruct (hval_at f cx ex M HL HR p2 p2 Hp2 Hh2) as (Hv2 & _).
  destruct Hv2 as [(Hc2 & t2 & T2 & Ht2 & Ew2)|[Hc2 Ew2]].
  - rewrite (proj2 (Z.ltb_lt (hoc (M p2)) _)) by (unfold UNCOLORED; destruct T2; lia). destruct Hv1 as [(Hc1 & t1 & T1 & Ht1 & Ew1)|[Hc1 Ew1]].
    + assert (cx p1 = cx p2) as Ec by lia. rewrite (proj2 (Z.leb_gt _ _)) by (unfold UNCOLORED; destruct T1; lia). cbn [orb].
      rewrite Ec in T1. assert (t1 = t2) as -> by (by eapply tgt_uniq). rewrite (proj2 (Z.ltb_ge _ _)) by lia. cbn [mbind option_bind].
      eexists _, _, (hoc (M p1)). split; [done|]. split; [done|]. left. split; [done|]. left. done.
    + rewrite (proj2 (Z.leb_le _ _)) by (rewrite Ew1; destruct (ex p1); done). cbn [orb].
      destruct (farr_hoc v0 W M ms p1 (hoc (M p2) + (ix p2 - ix p1)) HA Hr1) as (ms1 & -> & HA1); [destruct T2; lia|]. cbn [mbind option_bind].
      eexists _, _, _. split; [done|]. split; [done|]. right. unfold K. rewrite Hc1. cbn [Nat.max]. split_and!; [done|done|by left|]. exists t2. split_and!; [done|lia|lia].
  - rewrite (proj2 (Z.ltb_ge (hoc (M p2)) _)) by (rewrite Ew2; destruct (ex p2); done). destruct Hv1 as [(Hc1 & t1 & T1 & Ht1 & Ew1)|[Hc1 Ew1]].
    + rewrite (proj2 (Z.ltb_lt _ _)) by (unfold UNCOLORED; destruct T1; lia). rewrite (proj2 (Z.eqb_neq _ _)) by (unfold UNCOLORED; destruct T1; lia). cbn [mbind option_bind].
      eexists _, _, (hoc (M p1)). split; [done|]. split; [done|]. right. unfold K. rewrite Hc2, Nat.max_0_r. split_and!; [done|done|by right|]. by exists t1.
    + rewrite Ew1. destruct (ex p1) eqn:Ee.
      * cbn [Z.eqb EDGE_COMPONENT UNCOLORED Pos.eqb Z.ltb Z.compare Pos.compare Pos.compare_cont mbind option_bind].
        eexists _, _, (hoc (M p1)). split; [done|]. split; [done|]. left. split; [done|]. right. done.
      * rewrite Z.eqb_refl. destruct (farr_hoc v0 W M ms p1 EDGE_COMPONENT HA Hr1) as (ms1 & -> & HA1); [done|]. cbn [mbind option_bind].
        eexists _, _, _. split; [done|]. split; [done|]. left. split; [done|]. right. done.
Qed.

Lemma mg_U_ge y : (v0 <= y)%nat -> U y -> (p1 <= y)%nat.
Proof.
  intros Hy HU. destruct (decide (p1 <= y)%nat); [done|]. exfalso. destruct HU as [E|E].
  - destruct Hh1 as (_ & _ & H). apply (H y); [lia|done].
  - destruct Hh2 as (_ & _ & H). apply (H y); [lia|done].
Qed.
Lemma mg_U_in y : U y -> (y <= m)%nat /\ (y < v0 + W)%nat.
Proof.
  intros [E|E]; [destruct (decide (y = p1)) as [->|]; [lia|]|destruct (decide (y = p2)) as [->|]; [lia|]].
  - by apply (lb_in _ _ _ HL y p1).
  - by apply (lb_in _ _ _ HL y p2).
Qed.

(** the list after relinking and interleaving *)
Lemma mg_lists w ms1 : farr v0 W (fupd M p1 (FCell w (nxt (M p1)))) ms1 ->
  exists ms2 ms3 M3 q, relink (length ms1) ms1 (ix p1) (ix p2) = Some ms2 /\ interleave (length ms2) ms2 (ix p1) (ix p2) = Some (ms3, ix q) /\
    farr v0 W M3 ms3 /\ U q /\ (p1 < q)%nat /\
    (forall y, (v0 <= y)%nat -> U y -> isnext U y (nxt (M3 y)) /\ hoc (M3 y) = if decide (y = p1) then w else Z.of_nat p1 - Z.of_nat y) /\
    (forall y, (v0 <= y)%nat -> ~ U y -> M3 y = M y).
Proof.
  intros HA1. set (M1 := fupd M p1 _) in *. pose proof mg_ne as Hne.
  assert (Hn1 : forall y, nxt (M1 y) = nxt (M y)). { intros y. unfold M1, fupd. by destruct (Nat.eqb_spec y p1) as [->|]. }
  assert (Hc1 : chain v0 W (fun z => f z = f p1) M1 p1).
  { intros y Hy Hge. rewrite Hn1. apply (chain_from f cx ex M HL HR p1 p1); [done|done|lia|done|done]. }
  assert (Hc2 : chain v0 W (fun z => f z = f p2) M1 p2).
  { intros y Hy Hge. rewrite Hn1. apply (chain_from f cx ex M HL HR p2 p2); [done|done|lia|done|done]. }
  destruct (relink_ok v0 W HW (fun z => f z = f p2) p1 (length ms1) M1 ms1 p2 HA1 eq_refl Hc2) as (ms2 & M2 & E2 & HA2 & H21 & H22); [destruct HA1; lia|done|].
  destruct (interleave_ok v0 W HW (length ms2) (fun z => f z = f p1) (fun z => f z = f p2) M2 ms2 p1 p2 HA2 eq_refl eq_refl Hlt)
    as (ms3 & M3 & q & E3 & HA3 & Hq & HUq & H31 & H32).
  { intros z Hz E. destruct Hh2 as (_ & _ & H). apply (H z); [lia|done]. }
  { intros z Ha Hb. congruence. }
  { intros y Hy Hge. rewrite H22 by (intros [E _]; congruence). by apply Hc1. }
  { intros y Hy Hge. rewrite H21 by done. cbn [nxt]. by apply Hc2. }
  { destruct HA2. lia. }
  exists ms2, ms3, M3, q. split_and!; [done|done|done|done|done| |].
  - intros y Hy HU. destruct (H31 y (mg_U_ge y Hy HU) HU) as [Hn Hh]. split; [done|]. rewrite Hh. destruct (decide (y = p1)) as [->|Hyp].
    + rewrite H22 by (intros [E _]; congruence). unfold M1. by rewrite fupd_eq.
    + destruct HU as [E|E].
      * rewrite H22 by (intros [E' _]; congruence). unfold M1. rewrite fupd_ne by done. pose proof (mg_U_in y (or_introl E)).
        assert (hd_of f y p1) as Hh'. { destruct Hh1 as (R & _ & N). split_and!; [lia|apply mg_U_ge; [done|by left]|done|by rewrite E]. }
        destruct (cell_head f cx ex M HR y p1 ltac:(lia) Hh') as [[? _]|[_ ->]]; [congruence|done].
      * assert (p2 <= y)%nat. { destruct (decide (p2 <= y)%nat); [done|]. destruct Hh2 as (_ & _ & N). destruct (N y); [lia|done]. }
        rewrite H21 by done. cbn [hoc]. lia.
  - intros y Hy HnU. rewrite H32 by (intros [_ ?]; by apply HnU). rewrite H22 by (intros [? _]; apply HnU; by right). unfold M1. apply fupd_ne. intros ->. apply HnU. by left.
Qed.

Section target.
Context (f' cx' : nat -> nat) (ex' : nat -> bool).
Context (Hf' : forall x y, f' x = f' y <-> f x = f y \/ (U x /\ U y)).
Context (HcU : forall x, U x -> cx' x = K) (HcN : forall x, ~ U x -> cx' x = cx x).
Context (HeU : forall x, U x -> ex' x = true) (HeN : forall x, ~ U x -> ex' x = ex x).

Lemma U_dec x : Decision (U x).
Proof. unfold U. apply _. Qed.
Lemma U_cx x : U x -> cx x = cx p1 \/ cx x = cx p2.
Proof. intros [E|E]; [left|right]; by apply (lb_c _ _ _ HL). Qed.
Lemma tgt_other k t : k <> 0%nat -> k <> K -> istgt cx k t -> istgt cx' k t.
Proof.
  intros Hk HkK (R & E & N). split; [done|]. split.
  - destruct (U_dec t) as [HU|HU]; [|by rewrite HcN]. exfalso. apply U_cx in HU. unfold K in HkK. lia.
  - intros z Hz E'. destruct (U_dec z) as [HU|HU]; [rewrite HcU in E' by done; congruence|]. rewrite HcN in E' by done. by apply (N z).
Qed.
Lemma tgt_painted t z : K <> 0%nat -> istgt cx K t -> U z -> (v0 <= z)%nat -> (forall y, (z < y)%nat -> ~ U y) -> istgt cx' K (Nat.max t z).
Proof.
  intros HK (R & E & N) HUz Hz Hlast. pose proof (mg_U_in z HUz). split; [lia|]. split.
  - destruct (Nat.max_spec t z) as [[_ ->]|[_ ->]]; [by apply HcU|]. destruct (U_dec t) as [HU|HU]; [by apply HcU|by rewrite HcN].
  - intros y Hy E'. rewrite HcN in E' by (apply Hlast; lia). apply (N y); [lia|done].
Qed.
Lemma rep_merged M4 w : (forall y, (v0 <= y)%nat -> U y -> isnext U y (nxt (M4 y))) -> (forall y, (v0 <= y <= m)%nat -> ~ U y -> nxt (M4 y) = nxt (M y)) ->
  hoc (M4 p1) = w -> hval cx' ex' p1 w -> (forall y, (v0 <= y)%nat -> U y -> y <> p1 -> hoc (M4 y) = Z.of_nat p1 - Z.of_nat y) ->
  (forall y, (v0 <= y <= m)%nat -> ~ U y -> (hd_of f y y -> hval cx' ex' y (hoc (M4 y))) /\ (~ hd_of f y y -> hoc (M4 y) = hoc (M y))) ->
  Rep f' cx' ex' M4.
Proof.
  intros HnU HnN Hw Hv HhU HhN x Hx. destruct (U_dec x) as [HU|HU].
  - split.
    + eapply isnext_iff; [|apply HnU; [lia|done]]. intros y _. cbn. rewrite Hf'. split; [by right|]. intros [E|[? _]]; [|done]. unfold U in *. by rewrite E.
    + exists p1. split.
      * split_and!; [lia|apply mg_U_ge; [lia|done]|apply Hf'; right; split; [by left|done]|]. intros z Hz E. apply Hf' in E.
        assert (U z) as HUz by (destruct E as [E|[? _]]; [unfold U in *; by rewrite E|done]). pose proof (mg_U_ge z ltac:(lia) HUz). lia.
      * destruct (decide (x = p1)) as [->|Hne]; [left; split; [done|]; by rewrite Hw|]. right. pose proof (mg_U_ge x ltac:(lia) HU). split; [lia|]. apply HhU; [lia|done|done].
  - destruct (HR x Hx) as [Hn (h & Hh & Hho)]. assert (Hf'x : forall y, f' y = f' x <-> f y = f x).
    { intros y. rewrite Hf'. split; [intros [?|[_ ?]]; done|by left]. }
    split.
    + rewrite HnN by done. eapply isnext_iff; [|exact Hn]. intros y _. cbn. by rewrite Hf'x.
    + exists h. destruct (HhN x Hx HU) as [H1 H2]. split.
      * destruct Hh as (R & E & N). split_and!; [lia|lia|by apply Hf'x|]. intros z Hz Ez. apply Hf'x in Ez. by apply (N z).
      * destruct Hho as [[-> Hho]|[Hlt' Hho]]; [left; split; [done|]; by apply H1|]. right. split; [done|]. rewrite H2; [done|]. intros Hhx.
        pose proof (hd_uniq f x x x h Hhx Hh eq_refl). lia.
Qed.

Lemma mg_ok : exists ms' M',
  ('(painting, ms) ← merge_color ms (ix p1) (ix p2); ms ← relink (length ms) ms (ix p1) (ix p2);
   '(ms, q) ← interleave (length ms) ms (ix p1) (ix p2); if painting : bool then merge_paint ms (ix p1) q else Some ms) = Some ms' /\
  farr v0 W M' ms' /\ Rep f' cx' ex' M' /\ forall x, (v0 + W <= x)%nat -> M' x = M x.
Proof.
  destruct mg_color as (b & ms1 & w & -> & HA1 & Hb). cbn [mbind option_bind].
  destruct (mg_lists w ms1 HA1) as (ms2 & ms3 & M3 & q & -> & E3 & HA3 & HUq & Hq & HU3 & HN3). cbn [mbind option_bind]. rewrite E3. cbn [mbind option_bind].
  assert (Hfar : forall x, (v0 + W <= x)%nat -> M3 x = M x). { intros x Hx. apply HN3; [lia|]. intros HU%mg_U_in. lia. }
  destruct Hb as [[-> Hb]|(-> & HK & Hc0 & t & T & Ht & Ew)].
  - exists ms3, M3. split_and!; [done|done| |done].
    assert (Hsame : forall x, cx' x = cx x).
    { intros x. destruct (U_dec x) as [HU|HU]; [|by apply HcN]. rewrite HcU by done. destruct (U_cx x HU); unfold K; lia. }
    assert (Ht' : forall k t, istgt cx k t -> istgt cx' k t).
    { intros k t (R & E & N). split_and!; [lia|lia|by rewrite Hsame|]. intros z Hz. rewrite Hsame. by apply N. }
    apply (rep_merged M3 w).
    + intros y Hy HU. by apply HU3.
    + intros y Hy HU. rewrite HN3 by (done || lia). done.
    + destruct (HU3 p1 ltac:(lia) (or_introl eq_refl)) as [_ ->]. by destruct (decide _).
    + destruct Hb as [(Hc & Ec & ->)|(Hc & Hc2 & ->)].
      * destruct (hval_at f cx ex M HL HR p1 p1 Hp1 Hh1) as ([(_ & t & T & Ht & Ew)|[? _]] & _); [|done]. left. rewrite Hsame. split; [done|]. exists t. split; [by apply Ht'|done].
      * right. rewrite Hsame. split; [done|]. by rewrite HeU by (by left).
    + intros y Hy HU Hne. destruct (HU3 y Hy HU) as [_ ->]. by destruct (decide _).
    + intros y Hy HU. rewrite HN3 by (done || lia). split; [|done]. intros Hh. destruct (hval_at f cx ex M HL HR y y Hy Hh) as (Hv & _).
      destruct Hv as [(Hc & t & T & Ht & Ew)|[Hc Ew]]; [left|right]; rewrite Hsame; (split; [done|]).
      * exists t. split; [by apply Ht'|done].
      * by rewrite HeN by done.
  - unfold merge_paint.
    assert (Hch : chain v0 W U M3 q). { intros y HU Hy. pose proof (mg_U_in y HU). split; [lia|]. apply HU3; [lia|done]. }
    destruct (last_cell_ok v0 W U M3 ms3 (length ms3) q HA3 HUq Hch) as (z & -> & Hqz & HUz & Hlast); [destruct HA3; lia|]. cbn [mbind option_bind].
    rewrite (farr_get v0 W M3 ms3 p1 HA3 Hr1). cbn [mbind option_bind]. cbv zeta.
    destruct (HU3 p1 ltac:(lia) (or_introl eq_refl)) as [_ Hhp]. destruct (decide (p1 = p1)) as [_|]; [|done]. rewrite Hhp, Ew.
    replace (ix p1 + (Z.of_nat t - Z.of_nat p1)) with (ix t) by lia. pose proof (mg_U_in z HUz) as [Hzm HzW].
    pose proof (tgt_painted t z HK T HUz ltac:(lia) Hlast) as T'. pose proof T as (Rt & _).
    (* color pointers of heads outside U *)
    assert (Hheads : forall y, (v0 <= y <= m)%nat -> ~ U y -> hd_of f y y ->
      hval cx' ex' y (hoc (M y)) \/ (cx y = K /\ (y <= t)%nat /\ hoc (M y) = Z.of_nat t - Z.of_nat y)).
    { intros y Hy HU Hh. destruct (hval_at f cx ex M HL HR y y Hy Hh) as (Hv & _). destruct Hv as [(Hc & t' & T1 & Ht1 & Ew1)|[Hc Ew1]].
      - destruct (decide (cx y = K)) as [EK|EK].
        + right. rewrite EK in T1. assert (t' = t) as -> by (by eapply tgt_uniq). done.
        + left. left. rewrite HcN by done. split; [done|]. exists t'. split_and!; [by apply tgt_other|done|done].
      - left. right. rewrite HcN, HeN by done. done. }
    destruct (Z.ltb_spec (ix t) (ix z)) as [Htz|Htz].
    + set (step := fun (y : nat) (c : fcell) => if ix y + hoc c =? ix t then FCell (ix z - ix y) (nxt c) else c).
      destruct (cells_loop v0 W (fun ms k => c ← fget ms (Z.of_nat k); if Z.of_nat k + hoc c =? ix t then set_hoc ms (Z.of_nat k) (ix z - Z.of_nat k) else Some ms)
        step M3 (Z.to_nat (ix t + 1))) with (ms := ms3) as (ms4 & E4 & HA4); [lia| |done|].
      { intros M0 ms0 k Hk HA0 HM0. replace (Z.of_nat k) with (ix (v0 + k)) by lia. rewrite (farr_get v0 W M0 ms0 (v0 + k) HA0) by lia. cbn [mbind option_bind].
        unfold step. destruct (Z.eqb_spec (ix (v0 + k) + hoc (M0 (v0 + k)%nat)) (ix t)).
        - apply farr_hoc; [done|lia|lia].
        - exists ms0. split; [done|]. eapply farr_ext; [|exact HA0]. intros x _. unfold fupd. by destruct (Nat.eqb_spec x (v0 + k)) as [->|]. }
      rewrite E4. set (M4 := fun y => if decide _ then _ else _) in HA4. exists ms4, M4. split_and!; [done|done| |].
      2:{ intros x Hx. unfold M4. destruct (decide _); [lia|]. by apply Hfar. }
      assert (Hnx : forall y, nxt (M4 y) = nxt (M3 y)). { intros y. unfold M4, step. destruct (decide _); [|done]. by destruct (_ =? _). }
      rewrite Nat.max_r in T' by lia.
      apply (rep_merged M4 (Z.of_nat z - Z.of_nat p1)).
      * intros y Hy HU. rewrite Hnx. by apply HU3.
      * intros y Hy HU. rewrite Hnx, HN3 by (done || lia). done.
      * unfold M4, step. destruct (decide _); [|lia]. rewrite Hhp, Ew, (proj2 (Z.eqb_eq _ _)) by lia. cbn [hoc]. lia.
      * left. rewrite HcU by (by left). split; [done|]. exists z. split_and!; [done|lia|done].
      * intros y Hy HU Hne. destruct (HU3 y Hy HU) as [_ Hho]. destruct (decide (y = p1)); [done|]. pose proof (mg_U_ge y Hy HU).
        unfold M4, step. destruct (decide _); [|done]. rewrite (proj2 (Z.eqb_neq _ _)) by lia. done.
      * intros y Hy HU. unfold M4, step. rewrite HN3 by (done || lia). split.
        -- intros Hh. destruct (Hheads y Hy HU Hh) as [Hv|(EK & Hyt & Ey)].
           ++ destruct (decide _) as [Hd|]; [|done]. destruct (Z.eqb_spec (ix y + hoc (M y)) (ix t)) as [Ey|]; [|done]. exfalso.
              destruct Hv as [(Hc & t' & T1 & Ht1 & Ew1)|[Hc Ew1]].
              ** assert (t' = t) as -> by lia. rewrite HcN in Hc, T1 by done. destruct T1 as (_ & T1 & N1), T as (_ & T2 & N2).
                 assert (cx y = K) as EK.
                 { destruct (U_dec t) as [HUt|HUt]; [by rewrite <- T1, HcU|]. rewrite HcN in T1 by done. congruence. }
                 apply (N1 z); [lia|]. rewrite HcU by done. done.
              ** destruct (ex' y); unfold EDGE_COMPONENT, UNCOLORED in Ew1; lia.
           ++ destruct (decide _) as [Hd|]; [|lia]. rewrite (proj2 (Z.eqb_eq _ _)) by lia. cbn [hoc]. left. rewrite HcN by done. rewrite EK. split; [done|].
              exists z. split_and!; [done|lia|lia].
        -- intros Hh. destruct (decide _) as [Hd|]; [|done]. destruct (Z.eqb_spec (ix y + hoc (M y)) (ix t)) as [Ey|]; [|done]. exfalso.
           destruct (HR y Hy) as (_ & h & Hh' & [[-> _]|[Hl Hho]]); [done|]. lia.
    + rewrite Nat.max_l in T' by lia. exists ms3, M3. split_and!; [done|done| |done]. apply (rep_merged M3 w).
      * intros y Hy HU. by apply HU3.
      * intros y Hy HU. rewrite HN3 by (done || lia). done.
      * done.
      * left. rewrite HcU by (by left). split; [done|]. by exists t.
      * intros y Hy HU Hne. destruct (HU3 y Hy HU) as [_ ->]. by destruct (decide _).
      * intros y Hy HU. rewrite HN3 by (done || lia). split; [|done]. intros Hh. destruct (Hheads y Hy HU Hh) as [Hv|(EK & Hyt & Ey)]; [done|].
        left. rewrite HcN by done. rewrite EK. split; [done|]. exists t. done.
Qed.
End target.
End merge.

Lemma merge_ok f cx ex M ms a b f' cx' ex' : Lab f cx ex -> Rep f cx ex M -> farr v0 W M ms ->
  (v0 <= a <= m)%nat -> inr a -> (v0 <= b <= m)%nat -> inr b -> f a <> f b -> (cx a = 0%nat \/ cx b = 0%nat \/ cx a = cx b) ->
  (forall x y, f' x = f' y <-> f x = f y \/ ((f x = f a \/ f x = f b) /\ (f y = f a \/ f y = f b))) ->
  (forall x, f x = f a \/ f x = f b -> cx' x = Nat.max (cx a) (cx b)) -> (forall x, ~ (f x = f a \/ f x = f b) -> cx' x = cx x) ->
  (forall x, f x = f a \/ f x = f b -> ex' x = true) -> (forall x, ~ (f x = f a \/ f x = f b) -> ex' x = ex x) ->
  exists ms' M', mergeLists ms (ix a) (ix b) = Some ms' /\ farr v0 W M' ms' /\ Rep f' cx' ex' M' /\ forall x, (v0 + W <= x)%nat -> M' x = M x.
Proof.
  intros HL HR HA Ha Hra Hb Hrb Hne Hc Hf' HcU HcN HeU HeN. unfold mergeLists.
  destruct (rd_head f cx ex M ms HR HA a Ha Hra) as (ha & Hha & ->). destruct (rd_head f cx ex M ms HR HA b Hb Hrb) as (hb & Hhb & ->). cbn [mbind option_bind].
  pose proof Hha as (Ra & Ea & _). pose proof Hhb as (Rb & Eb & _).
  pose proof (lb_c _ _ _ HL _ _ Ea) as Ca. pose proof (lb_c _ _ _ HL _ _ Eb) as Cb.
  assert (ha <> hb) as Hne' by congruence. rewrite (proj2 (Z.eqb_neq _ _)) by lia. cbv zeta. apply hd_self in Hha, Hhb.
  destruct (decide (ha < hb)%nat) as [Hlt|Hge].
  - rewrite Z.min_l, Z.max_r by lia. eapply (mg_ok f cx ex M ms ha hb); try done; try lia; rewrite ?Ea, ?Eb, ?Ca, ?Cb; try done.
  - rewrite Z.min_r, Z.max_l by lia. eapply (mg_ok f cx ex M ms hb ha); try done; try lia; rewrite ?Ea, ?Eb, ?Ca, ?Cb; try done.
    + intros x y. rewrite Hf'. clear. firstorder.
    + intros x Hx. rewrite HcU by (clear -Hx; firstorder). lia.
    + intros x Hx. apply HcN. clear -Hx; firstorder.
    + intros x Hx. apply HeU. clear -Hx; firstorder.
    + intros x Hx. apply HeN. clear -Hx; firstorder.
Qed.
End rep.
