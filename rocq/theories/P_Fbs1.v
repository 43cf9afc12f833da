(** FrontierBasedSearch: the list operations on the array of cells. *)
From stdpp Require Import strings gmap.
From Verif Require Import Base Sem P_Size M_Graph M_Degree S_Degree P_Degree M_Fbs.
Local Open Scope Z_scope.

Definition fupd (M : nat -> fcell) (x : nat) (w : fcell) (y : nat) : fcell := if (y =? x)%nat then w else M y.
Lemma fupd_eq M x w : fupd M x w x = w.
Proof. unfold fupd. by rewrite Nat.eqb_refl. Qed.
Lemma fupd_ne M x w y : y <> x -> fupd M x w y = M y.
Proof. intros H. unfold fupd. by destruct (Nat.eqb_spec y x). Qed.

Section arrays.
Context (v0 W : nat) (HW : Z.of_nat W <= 32767).
(** the pointer to the cell of vertex x *)
Notation ix x := (Z.of_nat x - Z.of_nat v0).
Notation inr x := (v0 <= x < v0 + W)%nat.

Definition farr (M : nat -> fcell) (ms : cells) : Prop :=
  length ms = W /\ forall k, (k < W)%nat -> ms !! k = Some (M (v0 + k)%nat).

Lemma farr_get M ms x : farr M ms -> inr x -> fget ms (ix x) = Some (M x).
Proof.
  intros [_ H] Hx. unfold fget. rewrite (proj2 (Z.ltb_ge _ _)) by lia. replace (Z.to_nat (ix x)) with (x - v0)%nat by lia.
  rewrite H by lia. do 2 f_equal. lia.
Qed.
Lemma farr_set M ms x c : farr M ms -> inr x -> exists ms', fset ms (ix x) c = Some ms' /\ farr (fupd M x c) ms'.
Proof.
  intros HA Hx. unfold fset. rewrite (farr_get M ms x HA Hx). cbn [mbind option_bind]. eexists. split; [done|]. destruct HA as [Hl HA].
  split; [by rewrite insert_length|]. intros k Hk. replace (Z.to_nat (ix x)) with (x - v0)%nat by lia. destruct (decide (k = x - v0)%nat) as [->|Hne].
  - rewrite list_lookup_insert by lia. replace (v0 + (x - v0))%nat with x by lia. by rewrite fupd_eq.
  - rewrite list_lookup_insert_ne by done. rewrite fupd_ne by lia. by apply HA.
Qed.
Lemma farr_hoc M ms x h : farr M ms -> inr x -> -32768 <= h <= 32767 ->
  exists ms', set_hoc ms (ix x) h = Some ms' /\ farr (fupd M x (FCell h (nxt (M x)))) ms'.
Proof. intros HA Hx Hh. unfold set_hoc. rewrite (farr_get M ms x HA Hx). cbn [mbind option_bind]. rewrite wrap16_id by done. by apply farr_set. Qed.
Lemma farr_nxt M ms x h : farr M ms -> inr x -> -32768 <= h <= 32767 ->
  exists ms', set_nxt ms (ix x) h = Some ms' /\ farr (fupd M x (FCell (hoc (M x)) h)) ms'.
Proof. intros HA Hx Hh. unfold set_nxt. rewrite (farr_get M ms x HA Hx). cbn [mbind option_bind]. rewrite wrap16_id by done. by apply farr_set. Qed.
Lemma farr_ext M M' ms : (forall x, inr x -> M x = M' x) -> farr M ms -> farr M' ms.
Proof. intros H [Hl HA]. split; [done|]. intros k Hk. rewrite <- H by lia. by apply HA. Qed.

(** [d] is the distance from x to the next larger member of Q *)
Definition isnext (Q : nat -> Prop) (x : nat) (d : Z) : Prop :=
  (d = 0 /\ forall y, (x < y)%nat -> ~ Q y) \/
  exists y, (x < y)%nat /\ Q y /\ (forall z, (x < z < y)%nat -> ~ Q z) /\ d = Z.of_nat y - Z.of_nat x.
Lemma isnext_iff (Q Q' : nat -> Prop) x d : (forall y, (x < y)%nat -> Q y <-> Q' y) -> isnext Q x d -> isnext Q' x d.
Proof.
  intros H [[-> Hn]|(y & Hy & HQ & Hn & ->)]; [left; split; [done|]; intros y Hy HQ; apply (Hn y Hy); by apply H|].
  right. exists y. split_and!; [done|by apply H| |done]. clear HW. intros z Hz HQ'. apply (Hn z Hz). apply H; [lia|done].
Qed.
Definition chain (Q : nat -> Prop) (M : nat -> fcell) (x : nat) : Prop :=
  forall y, Q y -> (x <= y)%nat -> inr y /\ isnext Q y (nxt (M y)).

Lemma relink_ok (Q : nat -> Prop) p1 : forall fuel M ms x, farr M ms -> Q x -> chain Q M x -> (v0 + W - x <= fuel)%nat -> inr p1 ->
  exists ms' M', relink fuel ms (ix p1) (ix x) = Some ms' /\ farr M' ms' /\
    (forall y, Q y -> (x <= y)%nat -> M' y = FCell (ix p1 - ix y) (nxt (M y))) /\
    (forall y, ~ (Q y /\ (x <= y)%nat) -> M' y = M y).
Proof.
  induction fuel as [|f IH]; intros M ms x HA Hx Hch Hf Hp; destruct (Hch x Hx ltac:(lia)) as [Hr Hn]; [lia|].
  cbn [relink]. destruct (farr_hoc M ms x (ix p1 - ix x) HA Hr ltac:(lia)) as (ms1 & -> & HA1). cbn [mbind option_bind].
  rewrite (farr_get _ _ x HA1 Hr). cbn [mbind option_bind]. rewrite fupd_eq. cbn [nxt]. destruct Hn as [[Hd Hno]|(y & Hy & HQ & Hno & Hd)].
  - rewrite Hd. cbn [Z.eqb]. eexists _, _. split_and!; [done|exact HA1| |].
    + intros y HQ Hy. destruct (decide (y = x)) as [->|]; [by rewrite fupd_eq, Hd|]. destruct (Hno y ltac:(lia) HQ).
    + intros y Hny. rewrite fupd_ne; [done|]. intros ->. by apply Hny.
  - rewrite (proj2 (Z.eqb_neq _ _)) by lia. replace (ix x + nxt (M x)) with (ix y) by lia.
    destruct (IH (fupd M x (FCell (ix p1 - ix x) (nxt (M x)))) ms1 y HA1 HQ) as (ms' & M' & E & HA' & H1 & H2).
    { intros z Hz Hyz. rewrite fupd_ne by lia. apply Hch; [done|lia]. }
    { lia. } { done. }
    exists ms', M'. split_and!; [done|done| |].
    + intros z HQz Hxz. destruct (decide (z = x)) as [->|].
      * rewrite H2 by lia. by rewrite fupd_eq.
      * rewrite H1; [by rewrite fupd_ne by lia|done|]. destruct (decide (y <= z)%nat); [done|]. destruct (Hno z ltac:(lia) HQz).
    + intros z Hnz. rewrite H2 by (intros [HQz Hyz]; apply Hnz; split; [done|lia]). rewrite fupd_ne; [done|]. intros ->. apply Hnz. split; [done|lia].
Qed.

Lemma interleave_ok : forall fuel (P Q : nat -> Prop) M ms p q, farr M ms -> P p -> Q q -> (p < q)%nat ->
  (forall z, (p < z < q)%nat -> ~ Q z) -> (forall z, P z -> ~ Q z) -> chain P M p -> chain Q M q -> (v0 + W - p <= fuel)%nat ->
  exists ms' M' q', interleave fuel ms (ix p) (ix q) = Some (ms', ix q') /\ farr M' ms' /\ (p < q')%nat /\ (P q' \/ Q q') /\
    (forall y, (p <= y)%nat -> P y \/ Q y -> isnext (fun z => P z \/ Q z) y (nxt (M' y)) /\ hoc (M' y) = hoc (M y)) /\
    (forall y, ~ ((p <= y)%nat /\ (P y \/ Q y)) -> M' y = M y).
Proof.
  induction fuel as [|f IH]; intros P Q M ms p q HA HP HQ Hpq Hgap Hdis HcP HcQ Hf; destruct (HcP p HP ltac:(lia)) as [Hr Hn]; [lia|].
  destruct (HcQ q HQ ltac:(lia)) as [Hrq _].
  cbn [interleave]. rewrite (farr_get M ms p HA Hr). cbn [mbind option_bind]. cbv zeta.
  destruct Hn as [[Hd Hno]|(y & Hy & HPy & Hno & Hd)].
  - rewrite Hd. rewrite (proj2 (Z.eqb_neq (ix p) (ix q))) by lia. rewrite (proj2 (Z.ltb_ge (ix p + 0) (ix p))) by lia. rewrite (proj2 (Z.eqb_neq (ix p + 0) (ix q))) by lia. cbn [orb].
    rewrite (proj2 (Z.ltb_ge (ix p) (ix p + 0))) by lia. cbn [andb]. rewrite (proj2 (Z.eqb_eq (ix p) (ix p + 0))) by lia. cbn [orb negb].
    destruct (farr_nxt M ms p (ix q - ix p) HA Hr ltac:(lia)) as (ms1 & -> & HA1). cbn [mbind option_bind].
    eexists _, _, q. split_and!; [done|exact HA1|done|by right| |].
    + intros y Hy HPQ. destruct (decide (y = p)) as [->|Hne].
      * rewrite fupd_eq. cbn. split; [|done]. right. exists q. split_and!; [done|by right| |lia]. intros z Hz [HPz|HQz]; [by apply (Hno z ltac:(lia))|by apply (Hgap z)].
      * rewrite fupd_ne by done. split; [|done]. destruct HPQ as [HPy|HQy]; [destruct (Hno y ltac:(lia) HPy)|].
        assert (q <= y)%nat by (destruct (decide (q <= y)%nat); [done|]; destruct (Hgap y ltac:(lia) HQy)). destruct (HcQ y HQy) as [_ Hn]; [done|].
        eapply isnext_iff; [|exact Hn]. intros z Hz. cbn. split; [by right|]. intros [HPz|?]; [|done]. destruct (Hno z ltac:(lia) HPz).
    + intros y Hny. rewrite fupd_ne; [done|]. intros ->. apply Hny. split; [lia|by left].
  - replace (ix p + nxt (M p)) with (ix y) by lia. destruct (HcP y HPy ltac:(lia)) as [Hry _].
    assert (Hyq : y <> q) by (intros ->; by apply (Hdis q)).
    rewrite (proj2 (Z.eqb_neq (ix p) (ix q))) by lia. rewrite (proj2 (Z.ltb_ge (ix y) (ix p))) by lia. rewrite (proj2 (Z.eqb_neq (ix y) (ix q))) by lia. cbn [orb].
    rewrite (proj2 (Z.ltb_lt (ix p) (ix y))) by lia. cbn [andb]. destruct (Z.ltb_spec (ix y) (ix q)) as [Hlt|Hge].
    + destruct (IH P Q M ms y q HA HPy HQ ltac:(lia)) as (ms' & M' & q' & E & HA' & Hq' & HPQ' & H1 & H2); [intros; apply Hgap; lia|done|intros z Hz Hyz; apply HcP; [done|lia]|done|lia|].
      exists ms', M', q'. split_and!; [done|done|lia|done| |].
      * intros z Hz HPQ. destruct (decide (z = p)) as [->|Hne].
        -- rewrite H2 by lia. split; [|done]. right. exists y. split_and!; [done|by left| |lia]. intros z Hz' [HPz|HQz]; [by apply (Hno z)|apply (Hgap z); [lia|done]].
        -- apply H1; [|done]. destruct (decide (y <= z)%nat); [done|]. destruct HPQ as [HPz|HQz]; [destruct (Hno z ltac:(lia) HPz)|destruct (Hgap z ltac:(lia) HQz)].
      * intros z Hnz. apply H2. intros [Hz HPQ]. apply Hnz. split; [lia|done].
    + rewrite (proj2 (Z.eqb_neq (ix p) (ix y))) by lia. rewrite (proj2 (Z.ltb_lt (ix q) (ix y))) by lia. cbn [orb negb].
      destruct (farr_nxt M ms p (ix q - ix p) HA Hr ltac:(lia)) as (ms1 & -> & HA1). cbn [mbind option_bind].
      destruct (IH Q P (fupd M p (FCell (hoc (M p)) (ix q - ix p))) ms1 q y HA1 HQ HPy ltac:(lia)) as (ms' & M' & q' & E & HA' & Hq' & HPQ' & H1 & H2).
      { intros z Hz. apply Hno. lia. } { intros z HQz HPz. by apply (Hdis z). }
      { intros z Hz Hyz. rewrite fupd_ne by lia. apply HcQ; [done|lia]. } { intros z Hz Hyz. rewrite fupd_ne by lia. apply HcP; [done|lia]. } { lia. }
      exists ms', M', q'. split_and!; [done|done|lia|by destruct HPQ'; [right|left]| |].
      * intros z Hz HPQ. destruct (decide (z = p)) as [->|Hne].
        -- rewrite H2 by lia. rewrite fupd_eq. cbn. split; [|done]. right. exists q. split_and!; [done|by right| |lia].
           intros z Hz' [HPz|HQz]; [apply (Hno z); [lia|done]|by apply (Hgap z)].
        -- assert (q <= z)%nat. { destruct (decide (q <= z)%nat); [done|]. destruct HPQ as [HPz|HQz]; [destruct (Hno z ltac:(lia) HPz)|destruct (Hgap z ltac:(lia) HQz)]. }
           destruct (H1 z) as [Hn Hh]; [done|by destruct HPQ; [right|left]|]. rewrite fupd_ne in Hh by lia. split; [|done]. eapply isnext_iff; [|exact Hn]. intros w _. cbn. clear. firstorder.
      * intros z Hnz. rewrite H2; [rewrite fupd_ne; [done|intros ->; apply Hnz; split; [lia|by left]]|]. intros [Hz HPQ]. apply Hnz. split; [lia|by destruct HPQ; [right|left]].
Qed.

Lemma last_cell_ok (Q : nat -> Prop) M ms : forall fuel q, farr M ms -> Q q -> chain Q M q -> (v0 + W - q <= fuel)%nat ->
  exists z, last_cell fuel ms (ix q) = Some (ix z) /\ (q <= z)%nat /\ Q z /\ forall y, (z < y)%nat -> ~ Q y.
Proof.
  induction fuel as [|f IH]; intros q HA HQ Hch Hf; destruct (Hch q HQ ltac:(lia)) as [Hr Hn]; [lia|].
  cbn [last_cell]. rewrite (farr_get M ms q HA Hr). cbn [mbind option_bind]. destruct Hn as [[Hd Hno]|(y & Hy & HQy & Hno & Hd)].
  - rewrite Hd. cbn. by exists q.
  - rewrite (proj2 (Z.eqb_neq _ _)) by lia. replace (ix q + nxt (M q)) with (ix y) by lia.
    destruct (IH y HA HQy) as (z & E & Hz & H); [intros w Hw Hyw; apply Hch; [done|lia]|lia|]. exists z. split_and!; [done|lia|apply H|apply H].
Qed.

Lemma rehead_ok (Q : nat -> Prop) h : forall fuel M ms x, farr M ms -> Q x -> chain Q M x -> (v0 + W - x <= fuel)%nat -> inr h ->
  exists ms' M', rehead fuel ms (ix h) (ix x) = Some ms' /\ farr M' ms' /\
    (forall y, Q y -> (x < y)%nat -> M' y = FCell (ix h - ix y) (nxt (M y))) /\
    (forall y, ~ (Q y /\ (x < y)%nat) -> M' y = M y).
Proof.
  induction fuel as [|f IH]; intros M ms x HA Hx Hch Hf Hp; destruct (Hch x Hx ltac:(lia)) as [Hr Hn]; [lia|].
  cbn [rehead]. rewrite (farr_get _ _ x HA Hr). cbn [mbind option_bind]. destruct Hn as [[Hd Hno]|(y & Hy & HQ & Hno & Hd)].
  - rewrite Hd. cbn [Z.ltb Z.compare]. exists ms, M. split_and!; [done|done| |done]. intros y HQ Hy. destruct (Hno y ltac:(lia) HQ).
  - rewrite (proj2 (Z.ltb_lt _ _)) by lia. cbv zeta. replace (ix x + nxt (M x)) with (ix y) by lia. destruct (Hch y HQ ltac:(lia)) as [Hry _].
    destruct (farr_hoc M ms y (ix h - ix y) HA Hry ltac:(lia)) as (ms1 & -> & HA1). cbn [mbind option_bind].
    destruct (IH (fupd M y (FCell (ix h - ix y) (nxt (M y)))) ms1 y HA1 HQ) as (ms' & M' & E & HA' & H1 & H2).
    { intros z Hz Hyz. destruct (decide (z = y)) as [->|]; [rewrite fupd_eq; by apply Hch; [|lia]|]. rewrite fupd_ne by lia. apply Hch; [done|lia]. }
    { lia. } { done. }
    exists ms', M'. split_and!; [done|done| |].
    + intros z HQz Hxz. destruct (decide (z = y)) as [->|].
      * rewrite H2 by lia. by rewrite fupd_eq.
      * rewrite H1; [by rewrite fupd_ne by lia|done|]. destruct (decide (y < z)%nat); [done|]. destruct (Hno z ltac:(lia) HQz).
    + intros z Hnz. rewrite H2 by (intros [HQz Hyz]; apply Hnz; split; [done|lia]). rewrite fupd_ne; [done|]. intros ->. apply Hnz. split; [done|lia].
Qed.

(** a loop over the first N cells that changes each cell on its own *)
Lemma cells_loop (body : cells -> nat -> option cells) (step : nat -> fcell -> fcell) (M0 : nat -> fcell) N :
  (N <= W)%nat ->
  (forall M ms k, (k < N)%nat -> farr M ms -> M (v0 + k)%nat = M0 (v0 + k)%nat ->
     exists ms', body ms k = Some ms' /\ farr (fupd M (v0 + k)%nat (step (v0 + k)%nat (M (v0 + k)%nat))) ms') ->
  forall ms, farr M0 ms -> exists ms', ofold body (seq 0 N) ms = Some ms' /\
    farr (fun y => if decide (v0 <= y < v0 + N)%nat then step y (M0 y) else M0 y) ms'.
Proof.
  intros HN Hb ms HA. 
  assert (forall K, (K <= N)%nat -> exists ms', ofold body (seq 0 K) ms = Some ms' /\
    farr (fun y => if decide (v0 <= y < v0 + K)%nat then step y (M0 y) else M0 y) ms') as H; [|by apply H].
  induction K as [|K IH]; intros HK.
  - exists ms. split; [done|]. eapply farr_ext; [|exact HA]. intros x Hx. by destruct (decide _); [lia|].
  - destruct IH as (ms1 & E1 & HA1); [lia|]. rewrite seq_S, ofold_app, E1. cbn [mbind option_bind ofold].
    destruct (Hb _ ms1 K ltac:(lia) HA1) as (ms2 & E2 & HA2); [by destruct (decide _); [lia|]|]. cbn [Nat.add]. rewrite E2. exists ms2. split; [done|].
    eapply farr_ext; [|exact HA2]. intros x Hx. cbn beta. destruct (decide (x = v0 + K)%nat) as [->|Hne].
    + rewrite fupd_eq. destruct (decide (v0 <= v0 + K < v0 + K)%nat); [lia|]. by destruct (decide _); [|lia].
    + rewrite fupd_ne by done. destruct (decide (v0 <= x < v0 + K)%nat), (decide (v0 <= x < v0 + S K)%nat); try lia; done.
Qed.
End arrays.
