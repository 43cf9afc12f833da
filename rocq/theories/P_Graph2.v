(** Graph::update: last edges, frontier start and final flags. *)
From stdpp Require Import strings gmap.
From Coq Require Import String.
From Verif Require Import Base M_Graph S_Graph.
Local Open Scope nat_scope.

Definition inc (ne : list (nat * nat)) (a v : nat) : Prop := exists e, ne !! a = Some e /\ (fst e = v \/ snd e = v).

(** numbered edge lists *)
Record ne_ok (m : nat) (ne : list (nat * nat)) : Prop := {
  ne_range : forall a e, ne !! a = Some e -> 1 <= fst e /\ fst e <= snd e /\ snd e <= m;
  ne_used : forall v, 1 <= v <= m -> exists a, inc ne a v;
  ne_order : forall v w a, 1 <= v -> v <= w -> w <= m -> inc ne a v -> exists b, a <= b /\ inc ne b w;
  ne_simple : forall a b e, ne !! a = Some e -> ne !! b = Some e -> a = b
}.

Definition is_last (pre : list (nat * nat)) (v : nat) (x : Z) : Prop :=
  (x = (-1)%Z /\ forall b, ~ inc pre b v) \/ (exists a, x = Z.of_nat a /\ inc pre a v /\ forall b, inc pre b v -> b <= a).
Definition is_second (pre : list (nat * nat)) (v : nat) (x : Z) : Prop :=
  (x = (-1)%Z /\ forall b b', inc pre b v -> inc pre b' v -> b = b') \/
  (exists a c, x = Z.of_nat a /\ a < c /\ inc pre a v /\ inc pre c v /\ forall b, inc pre b v -> b = c \/ b <= a).

Lemma inc_snoc pre e b v : inc (pre ++ [e]) b v <-> inc pre b v \/ (b = length pre /\ (fst e = v \/ snd e = v)).
Proof.
  unfold inc. split.
  - intros (f & Hf & Hv). rewrite lookup_app in Hf. destruct (pre !! b) as [g|] eqn:Eg.
    + injection Hf as ->. left. by exists f.
    + apply list_lookup_singleton_Some in Hf as [H1 <-]. apply lookup_ge_None in Eg. right. split; [lia|done].
  - intros [(f & Hf & Hv)|[-> Hv]].
    + exists f. split; [|done]. by apply lookup_app_l_Some.
    + exists e. split; [|done]. by rewrite lookup_app_r, Nat.sub_diag by lia.
Qed.
Lemma inc_lt pre b v : inc pre b v -> b < length pre.
Proof. intros (f & Hf & _). by eapply lookup_lt_Some. Qed.

Lemma last_snoc_yes pre e v : fst e = v \/ snd e = v -> is_last (pre ++ [e]) v (Z.of_nat (length pre)).
Proof.
  intros Hv. right. exists (length pre). split_and!; [done|apply inc_snoc; by right|]. intros b Hb. apply inc_snoc in Hb as [Hb|[-> _]]; [|done].
  apply inc_lt in Hb. lia.
Qed.
Lemma last_snoc_no pre e v x : ~ (fst e = v \/ snd e = v) -> is_last pre v x -> is_last (pre ++ [e]) v x.
Proof.
  intros Hv [[-> H]|(a & -> & H1 & H2)].
  - left. split; [done|]. intros b Hb. apply inc_snoc in Hb as [Hb|[_ Hb]]; [by eapply H|done].
  - right. exists a. split_and!; [done|apply inc_snoc; by left|]. intros b Hb. apply inc_snoc in Hb as [Hb|[_ Hb]]; [by apply H2|done].
Qed.
Lemma second_snoc_yes pre e v x : fst e = v \/ snd e = v -> is_last pre v x -> is_second (pre ++ [e]) v x.
Proof.
  intros Hv [[-> H]|(a & -> & H1 & H2)].
  - left. split; [done|]. intros b b' Hb Hb'. apply inc_snoc in Hb as [Hb|[-> _]]; [by apply H in Hb|].
    apply inc_snoc in Hb' as [Hb'|[-> _]]; [by apply H in Hb'|done].
  - right. exists a, (length pre). split_and!; [done|by eapply inc_lt|apply inc_snoc; by left|apply inc_snoc; by right|].
    intros b Hb. apply inc_snoc in Hb as [Hb|[-> _]]; [right; by apply H2|by left].
Qed.
Lemma second_snoc_no pre e v x : ~ (fst e = v \/ snd e = v) -> is_second pre v x -> is_second (pre ++ [e]) v x.
Proof.
  intros Hv [[-> H]|(a & c & -> & H0 & H1 & H2 & H3)].
  - left. split; [done|]. intros b b' Hb Hb'. apply inc_snoc in Hb as [Hb|[_ Hb]]; [|done].
    apply inc_snoc in Hb' as [Hb'|[_ Hb']]; [by apply H|done].
  - right. exists a, c. split_and!; [done|done|apply inc_snoc; by left|apply inc_snoc; by left|].
    intros b Hb. apply inc_snoc in Hb as [Hb|[_ Hb]]; [by apply H3|done].
Qed.

Lemma last_edges_ok m ne : ne_ok m ne -> exists last second, last_edges m ne = Some (last, second) /\
  length last = S m /\ length second = S m /\
  (forall v x, 1 <= v -> last !! v = Some x -> is_last ne v x) /\
  (forall v x, 1 <= v -> second !! v = Some x -> is_second ne v x).
Proof.
  intros Hne. unfold last_edges.
  destruct (ofold_inv (fun st e =>
      let '(last, second, a) := st in
      x1 ← (last : list Z) !! (fst e : nat);
      x2 ← last !! (snd e : nat);
      if (fst e <? length second) && (snd e <? length second) then
        Some (<[snd e := Z.of_nat a]> (<[fst e := Z.of_nat a]> last), <[snd e := x2]> (<[fst e := x1]> second), S a)
      else None)
    (fun pre st => exists last second, st = (last, second, length pre) /\ length last = S m /\ length second = S m /\
      (forall v x, 1 <= v -> last !! v = Some x -> is_last pre v x) /\
      (forall v x, 1 <= v -> second !! v = Some x -> is_second pre v x))
    ne (0%Z :: replicate m (-1)%Z, 0%Z :: replicate m (-1)%Z, 0)) as (st & Hrun & last & second & -> & H1 & H2 & H3 & H4).
  - do 2 eexists. split; [reflexivity|]. cbn [length]. rewrite replicate_length. split_and!; [done|done| |].
    + intros v x Hv Hx. destruct v as [|v]; [lia|]. simpl in Hx. apply lookup_replicate in Hx as [-> _]. left. split; [done|].
      intros b (e & He & _). done.
    + intros v x Hv Hx. destruct v as [|v]; [lia|]. simpl in Hx. apply lookup_replicate in Hx as [-> _]. left. split; [done|].
      intros b b' (e & He & _). done.
  - intros pre e post st Hl (last & second & -> & H1 & H2 & H3 & H4).
    assert (ne !! length pre = Some e) as He by (rewrite Hl, lookup_app_r, Nat.sub_diag by lia; done).
    destruct (ne_range _ _ Hne _ _ He) as (R1 & R2 & R3).
    destruct (lookup_lt_is_Some_2 last (fst e)) as [x1 Hx1]; [lia|]. destruct (lookup_lt_is_Some_2 last (snd e)) as [x2 Hx2]; [lia|].
    rewrite Hx1, Hx2. cbn [mbind option_bind]. rewrite (proj2 (Nat.ltb_lt _ _)) by lia. rewrite (proj2 (Nat.ltb_lt _ _)) by lia. cbn [andb].
    eexists. split; [reflexivity|]. do 2 eexists. split; [by rewrite app_length, Nat.add_1_r|]. rewrite !insert_length. split_and!; [done|done| |].
    + intros v x Hv Hx. destruct (decide (snd e = v)) as [<-|N2].
      { rewrite list_lookup_insert in Hx by (rewrite insert_length; lia). injection Hx as <-. apply last_snoc_yes. by right. }
      rewrite list_lookup_insert_ne in Hx by done. destruct (decide (fst e = v)) as [<-|N1].
      { rewrite list_lookup_insert in Hx by lia. injection Hx as <-. apply last_snoc_yes. by left. }
      rewrite list_lookup_insert_ne in Hx by done. apply last_snoc_no; [tauto|by apply H3].
    + intros v x Hv Hx. destruct (decide (snd e = v)) as [<-|N2].
      { rewrite list_lookup_insert in Hx by (rewrite insert_length; lia). injection Hx as <-. apply second_snoc_yes; [by right|by apply H3]. }
      rewrite list_lookup_insert_ne in Hx by done. destruct (decide (fst e = v)) as [<-|N1].
      { rewrite list_lookup_insert in Hx by lia. injection Hx as <-. apply second_snoc_yes; [by left|by apply H3]. }
      rewrite list_lookup_insert_ne in Hx by done. apply second_snoc_no; [tauto|by apply H4].
  - rewrite Hrun. cbn [mbind option_bind]. by exists last, second.
Qed.

Lemma skip_left_ok (last : list Z) a u x : last !! u = Some x -> (Z.of_nat a <= x)%Z -> forall fuel v0, v0 <= u -> u - v0 < fuel ->
  exists v', skip_left fuel last a v0 = Some v' /\ v0 <= v' <= u /\ (exists y, last !! v' = Some y /\ (Z.of_nat a <= y)%Z) /\
  (forall w y, v0 <= w < v' -> last !! w = Some y -> (y < Z.of_nat a)%Z).
Proof.
  intros Hu Hx. induction fuel as [|fuel IH]; intros v0 H1 H2; [lia|]. simpl.
  destruct (lookup_lt_is_Some_2 last v0) as [y Hy]; [apply lookup_lt_Some in Hu; lia|]. rewrite Hy. cbn [mbind option_bind].
  destruct (Z.ltb_spec y (Z.of_nat a)) as [Hlt|Hge].
  - assert (v0 <> u) by (intros ->; rewrite Hu in Hy; injection Hy as ->; lia).
    destruct (IH (S v0)) as (v' & Hr & Hv & Hex & Hall); [lia..|]. exists v'. split_and!; [done|lia|lia|done|].
    intros w z Hw Hz. destruct (decide (w = v0)) as [->|NE]; [rewrite Hy in Hz; by injection Hz as <-|]. apply (Hall w); [lia|done].
  - exists v0. split_and!; [done|lia|lia|by exists y|]. intros w z Hw. lia.
Qed.

Definition info_ok (m : nat) (ne : list (nat * nat)) (last second : list Z) (first b : nat) (i : edge_info) : Prop :=
  exists e l1 l2 s1 s2 l0, ne !! b = Some e /\ last !! fst e = Some l1 /\ last !! snd e = Some l2 /\
  second !! fst e = Some s1 /\ second !! snd e = Some s2 /\
  e_v1 i = fst e /\ e_v2 i = snd e /\ 1 <= e_v0 i <= fst e /\ last !! e_v0 i = Some l0 /\ (Z.of_nat b <= l0)%Z /\
  (forall w y, 1 <= w < e_v0 i -> last !! w = Some y -> (y < Z.of_nat b)%Z) /\
  (e_v1final i = true <-> l1 = Z.of_nat b) /\ (e_v2final i = true <-> l2 = Z.of_nat b) /\
  (e_v1final2 i = true <-> s1 = Z.of_nat b) /\ (e_v2final2 i = true <-> s2 = Z.of_nat b) /\
  (e_allColorsSeen i = true <-> first <= b) /\ (e_finalEdge i = true <-> S b = length ne).

Lemma is_last_ge ne v x b : is_last ne v x -> inc ne b v -> (Z.of_nat b <= x)%Z.
Proof. intros [[_ H]|(a & -> & _ & H)] Hb; [by apply H in Hb|]. apply H in Hb. lia. Qed.

Lemma edge_infos_ok m ne last second first : ne_ok m ne -> length last = S m -> length second = S m ->
  (forall v x, 1 <= v -> last !! v = Some x -> is_last ne v x) ->
  exists infos, edge_infos m ne last second first = Some infos /\ length infos = length ne /\
  forall b i, infos !! b = Some i -> info_ok m ne last second first b i.
Proof.
  intros Hne Hl1 Hl2 Hlast. unfold edge_infos.
  destruct (ofold_inv (fun st e =>
      let '(infos, v0, a) := st in
      v0' ← skip_left (S m) last a v0;
      l1 ← last !! (fst e : nat); l2 ← last !! (snd e : nat);
      s1 ← second !! (fst e : nat); s2 ← second !! (snd e : nat);
      Some (infos ++ [EdgeInfo v0' (fst e) (snd e) (l1 =? Z.of_nat a)%Z (l2 =? Z.of_nat a)%Z
                        (s1 =? Z.of_nat a)%Z (s2 =? Z.of_nat a)%Z (first <=? a) (S a =? length ne)], v0', S a))
    (fun pre st => exists infos v0, st = (infos, v0, length pre) /\ length infos = length pre /\ 1 <= v0 /\
       (forall w y, 1 <= w < v0 -> last !! w = Some y -> (y < Z.of_nat (length pre))%Z) /\
       (forall b i, infos !! b = Some i -> info_ok m ne last second first b i))
    ne ([], 1, 0)) as (st & Hrun & infos & v0 & -> & H1 & H2 & H3 & H4).
  - exists [], 1. split_and!; [done|done|lia|intros; lia|done].
  - intros pre e post st Hl (infos & v0 & -> & H1 & H2 & H3 & H4).
    assert (ne !! length pre = Some e) as He by (rewrite Hl, lookup_app_r, Nat.sub_diag by lia; done).
    destruct (ne_range _ _ Hne _ _ He) as (R1 & R2 & R3).
    destruct (lookup_lt_is_Some_2 last (fst e)) as [x1 Hx1]; [lia|]. destruct (lookup_lt_is_Some_2 last (snd e)) as [x2 Hx2]; [lia|].
    destruct (lookup_lt_is_Some_2 second (fst e)) as [y1 Hy1]; [lia|]. destruct (lookup_lt_is_Some_2 second (snd e)) as [y2 Hy2]; [lia|].
    assert (Z.of_nat (length pre) <= x1)%Z as Hge.
    { eapply is_last_ge; [by apply Hlast|]. exists e. split; [done|by left]. }
    assert (v0 <= fst e) as Hv0.
    { destruct (decide (v0 <= fst e)); [done|]. exfalso. assert (x1 < Z.of_nat (length pre))%Z; [|lia]. apply (H3 (fst e)); [lia|done]. }
    destruct (skip_left_ok last (length pre) (fst e) x1 Hx1 Hge (S m) v0) as (v' & -> & Hv' & (l0 & Hl0 & Hl0') & Hall); [lia|lia|].
    cbn [mbind option_bind]. rewrite Hx1, Hx2, Hy1, Hy2. cbn [mbind option_bind]. eexists. split; [reflexivity|].
    do 2 eexists. split; [by rewrite app_length, Nat.add_1_r|].
    assert (Hleft : forall w y, 1 <= w < v' -> last !! w = Some y -> (y < Z.of_nat (length pre))%Z).
    { intros w y Hw Hy. destruct (decide (w < v0)); [apply (H3 w); [lia|done]|]. apply (Hall w); [lia|done]. }
    rewrite !app_length. cbn [length]. split_and!; [lia|lia| |].
    + intros w y Hw Hy. specialize (Hleft w y Hw Hy). lia.
    + intros b i Hb. rewrite lookup_app in Hb. destruct (infos !! b) as [i'|] eqn:Ei; [injection Hb as ->; by apply H4|].
      apply list_lookup_singleton_Some in Hb as [Hb <-]. apply lookup_ge_None in Ei. assert (b = length pre) as -> by lia.
      exists e, x1, x2, y1, y2, l0. cbn [e_v0 e_v1 e_v2 e_v1final e_v2final e_v1final2 e_v2final2 e_allColorsSeen e_finalEdge].
      rewrite !Z.eqb_eq, Nat.leb_le, Nat.eqb_eq. split_and!; try done; lia.
  - rewrite Hrun. cbn [mbind option_bind]. by exists infos.
Qed.

Lemma infos_incident m ne last second first infos : length infos = length ne ->
  (forall b i, infos !! b = Some i -> info_ok m ne last second first b i) ->
  forall a v, incident infos a v <-> inc ne a v.
Proof.
  intros Hlen Hi a v. split.
  - intros (i & Ha & Hv). destruct (Hi _ _ Ha) as (e & _ & _ & _ & _ & _ & He & _ & _ & _ & _ & E1 & E2 & _).
    exists e. split; [done|]. by rewrite <- E1, <- E2.
  - intros (e & Ha & Hv). destruct (lookup_lt_is_Some_2 infos a) as [i Hia]; [rewrite Hlen; by eapply lookup_lt_Some|].
    destruct (Hi _ _ Hia) as (e' & _ & _ & _ & _ & _ & He & _ & _ & _ & _ & E1 & E2 & _). exists i. split; [done|].
    assert (e' = e) as -> by congruence. by rewrite E1, E2.
Qed.

Lemma last_final ne v x b : is_last ne v x -> inc ne b v -> (x = Z.of_nat b <-> forall c, ~ (b < c /\ inc ne c v)).
Proof.
  intros [[_ H]|(a & -> & H1 & H2)] Hb; [by apply H in Hb|]. split.
  - intros E c [Hc1 Hc2]. apply H2 in Hc2. lia.
  - intros H. specialize (H2 b Hb). destruct (decide (b < a)); [exfalso; by apply (H a)|]. lia.
Qed.
Lemma second_final ne v x b : is_second ne v x -> inc ne b v ->
  (x = Z.of_nat b <-> exists c, (b < c /\ inc ne c v) /\ forall c', (b < c' /\ inc ne c' v) -> c' = c).
Proof.
  intros [[-> H]|(a & c & -> & H0 & H1 & H2 & H3)] Hb; split.
  - lia.
  - intros (c & [Hc1 Hc2] & _). rewrite (H b c Hb Hc2) in Hc1. lia.
  - intros E. assert (b = a) as -> by lia. exists c. split; [done|]. intros c' [Hc1 Hc2]. destruct (H3 c' Hc2); [done|lia].
  - intros (c1 & [Hc1 Hc2] & Hu). f_equal. destruct (H3 b Hb) as [->|Hle].
    + destruct (H3 c1 Hc2); lia.
    + destruct (decide (b = a)) as [->|]; [done|]. exfalso. assert (a = c1) by (apply Hu; split; [lia|done]).
      assert (c = c1) by (apply Hu; split; [lia|done]). lia.
Qed.

Lemma infos_numbering m ne last second first infos : ne_ok m ne -> length infos = length ne ->
  (forall v x, 1 <= v -> last !! v = Some x -> is_last ne v x) ->
  (forall v x, 1 <= v -> second !! v = Some x -> is_second ne v x) -> length last = S m ->
  (forall b i, infos !! b = Some i -> info_ok m ne last second first b i) ->
  numbering_ok m infos.
Proof.
  intros Hne Hlen Hlast Hsec Hll Hi. pose proof (infos_incident _ _ _ _ _ _ Hlen Hi) as Hinc. constructor.
  - intros a i Ha. destruct (Hi _ _ Ha) as (e & l1 & l2 & s1 & s2 & l0 & He & _ & _ & _ & _ & E1 & E2 & Hv0 & _).
    destruct (ne_range _ _ Hne _ _ He). rewrite E1, E2. lia.
  - intros v Hv. destruct (ne_used _ _ Hne v Hv) as [a Ha]. exists a. by apply Hinc.
  - intros v w a H1 H2 H3 Ha. apply Hinc in Ha. destruct (ne_order _ _ Hne v w a H1 H2 H3 Ha) as (b & Hb & Hb'). exists b. split; [done|]. by apply Hinc.
  - intros a i Ha. destruct (Hi _ _ Ha) as (e & l1 & l2 & s1 & s2 & l0 & He & _ & _ & _ & _ & E1 & E2 & Hv0 & Hl0 & Hge & Hlt & _). split.
    + apply Hlast in Hl0; [|lia]. destruct Hl0 as [[-> _]|(b & -> & Hb & _)]; [lia|]. exists b. split; [lia|]. by apply Hinc.
    + intros v b Hv Hab Hb. apply Hinc in Hb. destruct (ne_range _ _ Hne _ _ He) as (R1 & R2 & R3).
      destruct (lookup_lt_is_Some_2 last v) as [y Hy]; [lia|].
      pose proof (Hlt v y Hv Hy). pose proof (is_last_ge _ _ _ _ (Hlast v y ltac:(lia) Hy) Hb). lia.
  - intros a i Ha. destruct (Hi _ _ Ha) as (e & l1 & l2 & s1 & s2 & l0 & He & Hl1 & Hl2 & Hs1 & Hs2 & E1 & E2 & Hv0 & Hl0 & Hge & Hlt & F1 & F2 & F3 & F4 & F5 & F6).
    destruct (ne_range _ _ Hne _ _ He) as (R1 & R2 & R3).
    rewrite F1, E1. unfold later. setoid_rewrite Hinc. apply last_final; [by apply Hlast|]. exists e. split; [done|by left].
  - intros a i Ha. destruct (Hi _ _ Ha) as (e & l1 & l2 & s1 & s2 & l0 & He & Hl1 & Hl2 & Hs1 & Hs2 & E1 & E2 & Hv0 & Hl0 & Hge & Hlt & F1 & F2 & F3 & F4 & F5 & F6).
    destruct (ne_range _ _ Hne _ _ He) as (R1 & R2 & R3).
    rewrite F2, E2. unfold later. setoid_rewrite Hinc. apply last_final; [apply Hlast; [lia|done]|]. exists e. split; [done|by right].
  - intros a i Ha. destruct (Hi _ _ Ha) as (e & l1 & l2 & s1 & s2 & l0 & He & Hl1 & Hl2 & Hs1 & Hs2 & E1 & E2 & Hv0 & Hl0 & Hge & Hlt & F1 & F2 & F3 & F4 & F5 & F6).
    destruct (ne_range _ _ Hne _ _ He) as (R1 & R2 & R3).
    rewrite F3, E1. unfold later. setoid_rewrite Hinc. apply second_final; [by apply Hsec|]. exists e. split; [done|by left].
  - intros a i Ha. destruct (Hi _ _ Ha) as (e & l1 & l2 & s1 & s2 & l0 & He & Hl1 & Hl2 & Hs1 & Hs2 & E1 & E2 & Hv0 & Hl0 & Hge & Hlt & F1 & F2 & F3 & F4 & F5 & F6).
    destruct (ne_range _ _ Hne _ _ He) as (R1 & R2 & R3).
    rewrite F4, E2. unfold later. setoid_rewrite Hinc. apply second_final; [apply Hsec; [lia|done]|]. exists e. split; [done|by right].
  - intros a i Ha. destruct (Hi _ _ Ha) as (e & l1 & l2 & s1 & s2 & l0 & He & Hl1 & Hl2 & Hs1 & Hs2 & E1 & E2 & Hv0 & Hl0 & Hge & Hlt & F1 & F2 & F3 & F4 & F5 & F6).
    by rewrite F6, Hlen.
  - intros a b i j Ha Hb E1 E2. destruct (Hi _ _ Ha) as (e & _ & _ & _ & _ & _ & He & _ & _ & _ & _ & Ea1 & Ea2 & _).
    destruct (Hi _ _ Hb) as (f & _ & _ & _ & _ & _ & Hf & _ & _ & _ & _ & Eb1 & Eb2 & _).
    assert (e = f) as ->; [|by eapply (ne_simple _ _ Hne)]. destruct e, f. cbn [fst snd] in *. congruence.
Qed.
