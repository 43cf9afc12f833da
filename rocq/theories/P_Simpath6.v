(** Paths and cycles: from numbers to names. *)
From stdpp Require Import strings gmap.
From Coq Require Import String.
From Verif Require Import Base Sem M_Graph S_Graph S_Degree S_Simpath P_Simpath1 P_Simpath3 P_Simpath5.
Local Open Scope nat_scope.

Lemma next_map {A B} (h : A -> B) s t l : next_to s t (map h l) <-> exists x y, s = h x /\ t = h y /\ next_to x y l.
Proof.
  split.
  - intros (l1 & l2 & El). apply map_eq_app in El as (k1 & k2 & -> & <- & E2). destruct k2 as [|x [|y k2]]; [done|done|]. cbn in E2. injection E2 as <- <- <-.
    exists x, y. split; [done|]. split; [done|]. by exists k1, k2.
  - intros (x & y & -> & -> & l1 & l2 & ->). exists (map h l1), (map h l2). by rewrite map_app.
Qed.
Lemma next_elem {A} (x y : A) l : next_to x y l -> x ∈ l /\ y ∈ l.
Proof. intros (l1 & l2 & ->). split; apply elem_of_app; right; [left|right; left]. Qed.
Lemma elem_of_map {A B} (h : A -> B) s l : s ∈ map h l <-> exists x, s = h x /\ x ∈ l.
Proof. apply elem_of_list_fmap. Qed.

Section names.
Context (names : list edge_name) (n2c : list (string * string)) (g : graph).
Context (Hg : graph_ok names n2c g) (Hn2c : forall s c, (s, c) ∈ n2c -> vertex_name_in names s).
Notation nm := (vertexName g).
Notation en := (g_edge2name g).
Definition inr (x : nat) : Prop := 1 <= x <= vertexSize g.

Lemma nm_get x : inr x -> getVertex g (nm x) = Some x.
Proof. intros Hx. destruct (gr_vertex_all _ _ _ Hg x Hx) as [s Hs]. pose proof Hs as Hs'. apply (gr_vertex_name _ _ _ Hg) in Hs' as (_ & _ & ->). done. Qed.
Lemma get_nm s x : getVertex g s = Some x -> inr x /\ s = nm x.
Proof. intros H. apply (gr_vertex_name _ _ _ Hg) in H as (_ & H2 & <-). done. Qed.
Lemma nm_inj x y : inr x -> inr y -> nm x = nm y -> x = y.
Proof. intros Hx Hy E. apply nm_get in Hx, Hy. rewrite E in Hx. congruence. Qed.
Lemma nm_in x : inr x -> vertex_name_in names (nm x).
Proof. intros Hx. apply (gr_vertex _ _ _ Hg). rewrite nm_get by done. by eexists. Qed.

Lemma chosen_range v x y : chosen g v x y -> inr x /\ inr y.
Proof.
  intros (a & e & He & _ & Hj). destruct (no_range _ _ (gr_numbering _ _ _ Hg) _ _ He) as (R1 & R2 & R3 & R4). unfold joins, inr in *. lia.
Qed.
Lemma en_info a f : en !! a = Some f -> exists i, g_edgeInfo g !! a = Some i.
Proof. intros H. apply lookup_lt_is_Some_2. pose proof (gr_edgeSize _ _ _ Hg) as E. unfold edgeSize in E. rewrite E. by eapply lookup_lt_Some. Qed.
Lemma info_en a i : g_edgeInfo g !! a = Some i -> exists f, en !! a = Some f.
Proof. intros H. apply lookup_lt_is_Some_2. pose proof (gr_edgeSize _ _ _ Hg) as E. unfold edgeSize in E. rewrite <- E. by eapply lookup_lt_Some. Qed.
Lemma chosen_named_range v s t : chosen_named en v s t -> exists x y, inr x /\ inr y /\ s = nm x /\ t = nm y.
Proof.
  intros (a & f & Hf & _ & Hj). destruct (en_info a f Hf) as [i Hi].
  destruct (gr_ends _ _ _ Hg a f i Hf Hi) as [[E1 E2]|[E1 E2]]; apply get_nm in E1 as [I1 E1]; apply get_nm in E2 as [I2 E2];
    destruct Hj as [->| ->]; cbn [fst snd] in E1, E2; subst; eexists _, _; (split; [|split; [|split]]); try reflexivity; done.
Qed.
Lemma chosen_iff v x y : inr x -> inr y -> chosen g v x y <-> chosen_named en v (nm x) (nm y).
Proof.
  intros Hx Hy. pose proof (gr_edgeSize _ _ _ Hg) as Hes. split.
  - intros (a & i & Hi & Hv & Hj). destruct (info_en a i Hi) as [f Hf]. exists a, f. split; [done|]. rewrite <- Hes. split; [done|].
    destruct f as [s t]. destruct (gr_ends _ _ _ Hg a _ i Hf Hi) as [[E1 E2]|[E1 E2]]; apply get_nm in E1 as [_ E1]; apply get_nm in E2 as [_ E2]; cbn [fst snd] in E1, E2; subst;
    destruct Hj as [[-> ->]|[-> ->]]; (by left) || (by right).
  - intros (a & f & Hf & Hv & Hj). destruct (en_info a f Hf) as [i Hi]. exists a, i. split; [done|]. rewrite Hes. split; [done|].
    pose proof (nm_get x Hx) as Gx. pose proof (nm_get y Hy) as Gy. unfold joins.
    destruct (gr_ends _ _ _ Hg a f i Hf Hi) as [[E1 E2]|[E1 E2]]; destruct Hj as [->| ->]; cbn [fst snd] in E1, E2; rewrite ?Gx, ?Gy in E1; rewrite ?Gx, ?Gy in E2; injection E1 as <-; injection E2 as <-; tauto.
Qed.

(** relation between numbers and names on whole edge sets *)
Lemma edges_iff v (N : nat -> nat -> Prop) (S : string -> string -> Prop) :
  (forall x y, N x y -> inr x /\ inr y) -> (forall s t, S s t <-> exists x y, s = nm x /\ t = nm y /\ N x y) ->
  (forall x y, chosen g v x y <-> N x y) <-> (forall s t, chosen_named en v s t <-> S s t).
Proof.
  intros HN HS. split.
  - intros H s t. rewrite HS. split.
    + intros Hc. destruct (chosen_named_range v s t Hc) as (x & y & Hx & Hy & -> & ->). exists x, y. split; [done|]. split; [done|]. apply H. by apply chosen_iff.
    + intros (x & y & -> & -> & Hn). destruct (HN x y Hn). apply chosen_iff; [done|done|]. by apply H.
  - intros H x y. split.
    + intros Hc. destruct (chosen_range v x y Hc) as [Hx Hy]. pose proof (proj1 (chosen_iff v x y Hx Hy) Hc) as Hc'. apply H, HS in Hc' as (x' & y' & E1 & E2 & Hn).
      destruct (HN _ _ Hn) as [Hx' Hy']. by rewrite (nm_inj x x' Hx Hx' E1), (nm_inj y y' Hy Hy' E2).
    + intros Hn. destruct (HN x y Hn) as [Hx Hy]. apply chosen_iff; [done|done|]. apply H, HS. by exists x, y.
Qed.

Lemma nm_list l : (forall s, s ∈ l -> exists x, inr x /\ s = nm x) -> exists k, l = map nm k /\ Forall inr k.
Proof.
  induction l as [|s l IH]; intros H; [by exists []|]. destruct IH as (k & -> & Hk); [intros t Ht; apply H; by right|].
  destruct (H s ltac:(by left)) as (x & Hx & ->). exists (x :: k). split; [done|]. by constructor.
Qed.
Lemma nm_nodup l : Forall inr l -> NoDup (map nm l) <-> NoDup l.
Proof.
  induction l as [|x l IH]; intros H; [split; constructor|]. inversion_clear H as [|? ? Hx Hl]. cbn. rewrite !NoDup_cons, IH by done. rewrite elem_of_map. split.
  - intros [H1 H2]. split; [|done]. intros Hi. apply H1. by exists x.
  - intros [H1 H2]. split; [|done]. intros (y & E & Hy). rewrite Forall_forall in Hl. by rewrite (nm_inj x y Hx (Hl y Hy) E) in H1.
Qed.

(** ** cycles *)
Lemma cycle_names v c : Forall inr c -> cycle_of g v c <-> cycle_named en v (map nm c).
Proof.
  intros Hc. unfold cycle_of, cycle_named. rewrite map_length, (nm_nodup c Hc). rewrite Forall_forall in Hc.
  assert (Htk : map nm c ++ take 1 (map nm c) = map nm (c ++ take 1 c)) by (by rewrite map_app, firstn_map).
  rewrite Htk.
  assert (Hin : forall x, x ∈ c ++ take 1 c -> inr x). { intros x Hx. apply Hc. apply elem_of_app in Hx as [?|Hx]; [done|]. destruct c; [done|]. cbn in Hx. rewrite take_0 in Hx. apply elem_of_list_singleton in Hx as ->. left. }
  pose proof (edges_iff v (fun x y => next_to x y (c ++ take 1 c) \/ next_to y x (c ++ take 1 c))
    (fun s t => next_to s t (map nm (c ++ take 1 c)) \/ next_to t s (map nm (c ++ take 1 c)))) as HE.
  cbv beta in HE. rewrite HE; [done| |].
  - intros x y [H|H]; apply next_elem in H as [? ?]; split; by apply Hin.
  - intros s t. rewrite !next_map. split.
    + intros [(x & y & -> & -> & H)|(x & y & -> & -> & H)]; [exists x, y|exists y, x]; tauto.
    + intros (x & y & -> & -> & [H|H]); [left; exists x, y|right; exists y, x]; tauto.
Qed.
Lemma is_cycle_names v : is_cycle g v <-> exists c, cycle_named en v c.
Proof.
  split.
  - intros [c Hc]. exists (map nm c). apply cycle_names; [|done]. apply Forall_forall. intros x Hx. destruct (cycle_cover g v c x Hc Hx) as [y Hy]. by apply chosen_range in Hy as [? _].
  - intros [c Hc]. destruct (nm_list c) as (k & -> & Hk).
    + intros s Hs. destruct Hc as (H1 & H2 & H3). destruct c as [|a c]; [by apply elem_of_nil in Hs|]. destruct (next_some s (a :: c) a Hs) as [t Ht].
      assert (chosen_named en v s t) as Hn by (apply H3; left; exact Ht). destruct (chosen_named_range v s t Hn) as (x & y & Hx & _ & -> & _). by exists x.
    + exists k. by apply cycle_names.
Qed.

(** ** colors *)
Definition CN (k : nat) (c : string) : Prop := forall x, inr x -> colorNumber g x = S k <-> (nm x, c) ∈ n2c.
Lemma color_some x : inr x -> colorNumber g x <> 0 -> exists c, (nm x, c) ∈ n2c.
Proof.
  intros Hx Hc. destruct (decide (Exists (fun q => fst q = nm x) n2c)) as [He|He].
  - apply Exists_exists in He as ([s c] & Hin & E). cbn in E. subst s. by exists c.
  - exfalso. apply Hc. apply (gr_color_zero _ _ _ Hg (nm x) x (nm_get x Hx)). intros c Hin. apply He, Exists_exists. by exists (nm x, c).
Qed.
Lemma color_pos x c : inr x -> (nm x, c) ∈ n2c -> colorNumber g x <> 0.
Proof. intros Hx Hin E. apply (gr_color_zero _ _ _ Hg (nm x) x (nm_get x Hx)) with (c := c) in E. done. Qed.
Lemma CN_at x c : inr x -> (nm x, c) ∈ n2c -> CN (colorNumber g x - 1) c.
Proof.
  intros Hx Hin y Hy. pose proof (color_pos x c Hx Hin) as Hp. replace (S (colorNumber g x - 1)) with (colorNumber g x) by lia. split.
  - intros E. destruct (color_some y Hy) as [d Hd]; [lia|]. by rewrite <- (proj1 (gr_color_eq _ _ _ Hg _ _ y x d c (nm_get y Hy) (nm_get x Hx) Hd Hin) E).
  - intros Hin'. by apply (gr_color_eq _ _ _ Hg _ _ y x c c (nm_get y Hy) (nm_get x Hx) Hin' Hin).
Qed.
Lemma CN_ex k : k < g_numColor g -> exists c x, CN k c /\ inr x /\ (nm x, c) ∈ n2c.
Proof.
  intros Hk. destruct (gr_color_all _ _ _ Hg (S k)) as [x Hx]; [lia|]. assert (inr x) as Hr by (apply color_out; lia).
  destruct (color_some x Hr) as [c Hc]; [lia|]. exists c, x. split; [|done]. pose proof (CN_at x c Hr Hc) as H. rewrite Hx in H. by replace (S k - 1) with k in H by lia.
Qed.
Lemma n2c_vertex s c : (s, c) ∈ n2c -> exists x, inr x /\ s = nm x.
Proof. intros H. apply Hn2c, (gr_vertex _ _ _ Hg) in H as [x Hx]. exists x. by apply get_nm in Hx. Qed.
Lemma CN_of s c : (s, c) ∈ n2c -> exists k, k < g_numColor g /\ CN k c.
Proof.
  intros H. destruct (n2c_vertex s c H) as (x & Hx & ->). exists (colorNumber g x - 1). split; [|by apply CN_at].
  pose proof (color_pos x c Hx H). pose proof (gr_color_range _ _ _ Hg x). lia.
Qed.
Lemma CN_inj j k c x : inr x -> (nm x, c) ∈ n2c -> CN j c -> CN k c -> j = k.
Proof. intros Hx Hin Hj Hk. apply (Hj x Hx) in Hin as E1. apply (Hk x Hx) in Hin. congruence. Qed.
Lemma CN_fun k c d x : inr x -> (nm x, c) ∈ n2c -> CN k c -> CN k d -> c = d.
Proof.
  intros Hx Hin Hc Hd. pose proof (proj2 (Hc x Hx) Hin) as E. pose proof (proj1 (Hd x Hx) E) as Hin'.
  by apply (gr_color_eq _ _ _ Hg _ _ x x c d (nm_get x Hx) (nm_get x Hx) Hin Hin').
Qed.

Lemma pairs_names : color_pairs n2c -> g_hasColorPairs g = true.
Proof.
  intros [Hne Hp]. apply (gr_pairs _ _ _ Hg). split.
  - destruct n2c as [|[s c] l] eqn:El; [done|]. rewrite <- El in *. destruct (CN_of s c) as (k & Hk & _); [rewrite El; left|]. lia.
  - intros x Hx Hc. destruct (color_some x Hx Hc) as [c Hin]. destruct (Hp _ _ Hin) as (t & Hne' & Ht).
    assert ((t, c) ∈ n2c) as Hint by (apply Ht; by right). destruct (n2c_vertex t c Hint) as (w & Hw & ->).
    assert (virtualMate g x = w) as ->; [|unfold inr in Hw; lia]. apply (gr_mate _ _ _ Hg x w Hx Hw). split; [congruence|]. split; [done|].
    intros y Hy. pose proof (CN_at x c Hx Hin y Hy) as Hcn. replace (S (colorNumber g x - 1)) with (colorNumber g x) in Hcn by lia. rewrite Hcn, Ht. split.
    + intros [E|E]; [left|right]; by apply nm_inj.
    + intros [->| ->]; [by left|by right].
Qed.

(** ** links *)
Lemma list_by_index {A} (R : nat -> A -> Prop) n : (forall k, k < n -> exists a, R k a) -> exists l, length l = n /\ forall k a, l !! k = Some a -> R k a.
Proof.
  revert R. induction n as [|n IH]; intros R H; [by exists []|]. destruct (H 0) as [a Ha]; [lia|]. destruct (IH (fun k => R (S k))) as (l & Hl & Hr); [intros k Hk; apply H; lia|].
  exists (a :: l). split; [cbn; lia|]. intros [|k] b Hb; cbn in Hb; [by injection Hb as <-|by apply Hr].
Qed.
Lemma links_edges v (ps : list (list nat)) (S : string -> string -> Prop) : (forall p, p ∈ ps -> Forall inr p) ->
  (forall s t, S s t <-> exists p, p ∈ ps /\ (next_to s t (map nm p) \/ next_to t s (map nm p))) ->
  (forall x y, chosen g v x y <-> exists p, p ∈ ps /\ (next_to x y p \/ next_to y x p)) <-> (forall s t, chosen_named en v s t <-> S s t).
Proof.
  intros Hr HS. apply edges_iff.
  - intros x y (p & Hp & Hn). specialize (Hr p Hp). rewrite Forall_forall in Hr. destruct Hn as [Hn|Hn]; apply next_elem in Hn as [? ?]; split; by apply Hr.
  - intros s t. rewrite HS. split.
    + intros (p & Hp & Hn). rewrite !next_map in Hn. destruct Hn as [(x & y & -> & -> & H)|(x & y & -> & -> & H)]; [exists x, y|exists y, x]; (split; [done|]); (split; [done|]); exists p; tauto.
    + intros (x & y & -> & -> & p & Hp & Hn). exists p. split; [done|]. rewrite !next_map. destruct Hn as [H|H]; [left; exists x, y|right; exists y, x]; tauto.
Qed.
Lemma is_links_names v : is_links g v <-> exists f, links_named en n2c v f.
Proof.
  split.
  - intros [ps Hps]. pose proof Hps as (H1 & H2 & H3 & H4).
    assert (Hr : forall p, p ∈ ps -> Forall inr p).
    { intros p Hp. apply Forall_forall. intros x Hx. apply elem_of_list_lookup in Hp as [k Hk].
      destruct (links_cover g v ps x Hps) as [y Hy]; [apply in_concat_iff; by exists k, p|]. by apply chosen_range in Hy as [? _]. }
    destruct (list_by_index (fun k cp => exists p, ps !! k = Some p /\ snd cp = map nm p /\ CN k (fst cp) /\ exists x, inr x /\ (nm x, fst cp) ∈ n2c) (length ps)) as (f & Hf1 & Hf2).
    { intros k Hk. destruct (lookup_lt_is_Some_2 ps k Hk) as [p Hp]. destruct (CN_ex k) as (c & x & Hc & Hx & Hin); [lia|]. exists (c, map nm p), p. split; [done|]. split; [done|]. split; [done|]. by exists x. }
    assert (Hf3 : forall k p, ps !! k = Some p -> exists c, f !! k = Some (c, map nm p) /\ CN k c).
    { intros k p Hk. destruct (lookup_lt_is_Some_2 f k) as [[c q] Hq]; [rewrite Hf1; by eapply lookup_lt_Some|]. destruct (Hf2 _ _ Hq) as (p' & Hp' & E & Hc & _). cbn in *. exists c. split; [|done]. congruence. }
    assert (Hms : map snd f = map (map nm) ps).
    { apply list_eq. intros k. rewrite !list_lookup_fmap. destruct (ps !! k) as [p|] eqn:Hk.
      - destruct (Hf3 k p Hk) as (c & -> & _). done.
      - apply lookup_ge_None in Hk. rewrite (proj2 (lookup_ge_None f k)) by lia. done. }
    exists f. unfold links_named. rewrite Hms. split_and!.
    + apply NoDup_alt. intros j k c Hj Hk. rewrite list_lookup_fmap in Hj, Hk. apply fmap_Some in Hj as ([c1 p1] & Hj & ->), Hk as ([c2 p2] & Hk & E). cbn in E. subst c2.
      destruct (Hf2 _ _ Hj) as (_ & _ & _ & Hc1 & x & Hx & Hin), (Hf2 _ _ Hk) as (_ & _ & _ & Hc2 & _). cbn in *. by eapply CN_inj.
    + intros c. rewrite elem_of_map. split.
      * intros ([c' p] & -> & Hin). apply elem_of_list_lookup in Hin as [k Hk]. destruct (Hf2 _ _ Hk) as (_ & _ & _ & _ & x & Hx & Hin). by exists (nm x).
      * intros [s Hs]. destruct (CN_of s c Hs) as (k & Hk & Hc). destruct (lookup_lt_is_Some_2 f k) as [[d q] Hq]; [lia|]. exists (d, q). split; [|by eapply elem_of_list_lookup_2].
        destruct (Hf2 _ _ Hq) as (_ & _ & _ & Hd & x & Hx & Hin). cbn in *. by eapply (CN_fun k d c x) in Hd.
    + rewrite <- concat_map. apply nm_nodup; [|done]. apply Forall_forall. intros x Hx. apply in_concat_iff in Hx as (k & p & Hk & Hx).
      specialize (Hr p). rewrite Forall_forall in Hr. apply Hr; [by eapply elem_of_list_lookup_2|done].
    + intros c p Hin. apply elem_of_list_lookup in Hin as [k Hk]. destruct (Hf2 _ _ Hk) as (q & Hq & E & Hc & _). cbn in *. subst p.
      destruct (H3 k q Hq) as (x & l & y & -> & Cx & Cy). exists (nm x), (map nm l), (nm y). split; [cbn; by rewrite map_app|].
      split; apply Hc; try done; apply color_out; lia.
    + apply (proj1 (links_edges v ps (fun s t => exists p, p ∈ map (map nm) ps /\ (next_to s t p \/ next_to t s p)) Hr
        ltac:(intros s t; split; [intros (p & Hp & H); apply elem_of_map in Hp as (q & -> & Hq); by exists q|intros (p & Hp & H); exists (map nm p); split; [apply elem_of_map; by exists p|done]])) H4).
  - intros (f & F1 & F2 & F3 & F4 & F5).
    assert (Hrange : forall c p, (c, p) ∈ f -> exists q, p = map nm q /\ Forall inr q).
    { intros c p Hin. destruct (nm_list p) as (q & -> & Hq); [|by exists q]. intros s Hs. destruct (F4 c p Hin) as (a & l & b & -> & Ha & Hb).
      assert (exists t, next_to s t (a :: l ++ [b]) \/ next_to t s (a :: l ++ [b])) as [t Ht].
      { rewrite app_comm_cons in *. apply elem_of_app in Hs as [Hs| ->%elem_of_list_singleton].
        - destruct (next_some s (a :: l) b Hs) as [t Ht]. exists t. by left.
        - destruct (snoc_inv (a :: l)) as [|(l' & d & ->)]; [done|]. exists d. right. exists l', []. by rewrite <- app_assoc. }
      destruct (chosen_named_range v s t) as (x & y & Hx & _ & -> & _); [|by exists x]. apply F5. exists (a :: l ++ [b]). split; [apply elem_of_map; by exists (c, a :: l ++ [b])|done]. }
    destruct (list_by_index (fun k p => exists c j, CN k c /\ f !! j = Some (c, map nm p) /\ Forall inr p) (g_numColor g)) as (ps & Hl & Hps).
    { intros k Hk. destruct (CN_ex k Hk) as (c & x & Hc & Hx & Hin). assert (c ∈ map fst f) as Hcf by (apply F2; by exists (nm x)). apply elem_of_map in Hcf as ([c' p] & -> & Hcp).
      destruct (Hrange _ _ Hcp) as (q & -> & Hq). apply elem_of_list_lookup in Hcp as [j Hj]. exists q, c', j. done. }
    assert (Hcol : forall j c p, f !! j = Some (c, p) -> exists x, inr x /\ (nm x, c) ∈ n2c).
    { intros j c p Hj. destruct (proj1 (F2 c)) as [s Hs]; [apply elem_of_map; exists (c, p); split; [done|by eapply elem_of_list_lookup_2]|]. destruct (n2c_vertex s c Hs) as (x & Hx & ->). by exists x. }
    assert (Huniq : forall j k c p q, f !! j = Some (c, p) -> f !! k = Some (c, q) -> j = k).
    { intros j k c p q Hj Hk. eapply (proj1 (NoDup_alt (map fst f))); [exact F1|rewrite list_lookup_fmap, Hj; done|rewrite list_lookup_fmap, Hk; done]. }
    assert (Hpsin : forall p, p ∈ ps -> exists j c, f !! j = Some (c, map nm p) /\ Forall inr p).
    { intros p Hp. apply elem_of_list_lookup in Hp as [k Hk]. destruct (Hps _ _ Hk) as (c & j & _ & Hj & Hr). by exists j, c. }
    exists ps. split; [done|]. split_and!.
    + apply concat_nd.
      * intros k p Hk. destruct (Hps _ _ Hk) as (c & j & _ & Hj & Hr). apply (nm_nodup p Hr). eapply (link_part (map snd f) j); [done|]. rewrite list_lookup_fmap, Hj. done.
      * intros k1 k2 p1 p2 x Hk1 Hk2 X1 X2. destruct (Hps _ _ Hk1) as (c1 & j1 & Hc1 & Hj1 & Hr1), (Hps _ _ Hk2) as (c2 & j2 & Hc2 & Hj2 & Hr2).
        assert (j1 = j2) as <-. { eapply (concat_uniq (map snd f) F3 j1 j2 (map nm p1) (map nm p2) (nm x)); [by rewrite list_lookup_fmap, Hj1|by rewrite list_lookup_fmap, Hj2|apply elem_of_map; by exists x|apply elem_of_map; by exists x]. }
        assert (c1 = c2) as <- by congruence. destruct (Hcol _ _ _ Hj1) as (y & Hy & Hin). by eapply CN_inj.
    + intros k p Hk. destruct (Hps _ _ Hk) as (c & j & Hc & Hj & Hr). destruct (F4 c (map nm p)) as (s & l & t & E & Hs & Ht); [by eapply elem_of_list_lookup_2|].
      destruct p as [|x p]; [done|]. cbn in E. injection E as E1 E2. destruct (snoc_inv p) as [->|(q & y & ->)]; [by destruct l|]. rewrite map_app in E2. cbn in E2. apply app_inj_tail in E2 as [_ E2].
      rewrite Forall_forall in Hr. exists x, q, y. split; [done|]. split; apply Hc.
      * apply Hr. left.
      * congruence.
      * apply Hr. right. apply elem_of_app. right. by apply elem_of_list_singleton.
      * congruence.
    + apply (proj2 (links_edges v ps (fun s t => exists p, p ∈ map snd f /\ (next_to s t p \/ next_to t s p)) ltac:(intros p Hp; by destruct (Hpsin p Hp) as (? & ? & _ & ?))
        ltac:(intros s t; split; [intros (p & Hp & H); apply elem_of_map in Hp as ([c q] & -> & Hq)|intros (p & Hp & H); destruct (Hpsin p Hp) as (j & c & Hj & _); exists (map nm p); split; [apply elem_of_map; exists (c, map nm p); split; [done|by eapply elem_of_list_lookup_2]|done]];
          destruct (proj1 (F2 c)) as [s' Hs']; [apply elem_of_map; by exists (c, q)|]; destruct (CN_of s' c Hs') as (k & Hk & Hc); destruct (lookup_lt_is_Some_2 ps k) as [p Hp]; [lia|];
          exists p; split; [by eapply elem_of_list_lookup_2|]; destruct (Hps _ _ Hp) as (d & j & Hd & Hj & _); destruct (Hcol _ _ _ Hj) as (x & Hx & Hin); assert (d = c) as -> by (by eapply (CN_fun k d c x));
          apply elem_of_list_lookup in Hq as [j' Hj']; pose proof (Huniq _ _ _ _ _ Hj Hj') as <-; assert (q = map nm p) as -> by congruence; exact H)) F5).
Qed.
End names.

Lemma vertices_bound names n2c g vs : graph_ok names n2c g -> (forall s, vertex_name_in names s -> s ∈ vs) -> vertexSize g <= length vs.
Proof.
  intros Hg Hvs. assert (map (vertexName g) (seq 1 (vertexSize g)) ⊆+ vs) as Hs.
  { apply NoDup_submseteq.
    - apply (nm_nodup names n2c g Hg); [|apply NoDup_seq]. apply Forall_forall. intros x Hx. apply elem_of_seq in Hx. unfold inr. lia.
    - intros s Hs. apply elem_of_list_fmap in Hs as (x & -> & Hx). apply elem_of_seq in Hx. apply Hvs, (nm_in names n2c g Hg). unfold inr. lia. }
  apply submseteq_length in Hs. by rewrite map_length, seq_length in Hs.
Qed.
Lemma names_loop_free names n2c g : graph_ok names n2c g -> (forall e, e ∈ names -> fst e <> snd e) -> (forall e, e ∈ g_edge2name g -> e ∈ names) -> loop_free g.
Proof.
  intros Hg Hloop Hfo a e He. destruct (lookup_lt_is_Some_2 (g_edge2name g) a) as [f Hf].
  { rewrite <- (gr_edgeSize _ _ _ Hg). by apply lookup_lt_Some in He. }
  assert (fst f <> snd f) as Hd by (apply Hloop, Hfo; by eapply elem_of_list_lookup_2).
  intros E. apply Hd. destruct (gr_ends _ _ _ Hg _ _ _ Hf He) as [[H1 H2]|[H1 H2]]; rewrite E in *;
  apply (gr_vertex_name _ _ _ Hg) in H1 as (_ & _ & <-), H2 as (_ & _ & <-); done.
Qed.
