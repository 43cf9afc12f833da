(** FrontierBasedSearch: from the search to the specification, and from numbers to names. *)
From stdpp Require Import strings gmap.
From Coq Require Import String.
From Verif Require Import Base Sem M_Graph S_Graph S_Degree M_Fbs S_Simpath S_Fbs P_Simpath5 P_Simpath6 P_Fbs4 P_Fbs5.
Local Open Scope nat_scope.

Section spec.
Context (names : list edge_name) (n2c : list (string * string)) (g : graph).
Context (Hg : graph_ok names n2c g) (HL : loop_free g) (H1 : 1 <= edgeSize g) (Hm : (Z.of_nat (vertexSize g) <= 32766)%Z).
Context (k : Z) (Hk : (-32768 <= k <= 32767)%Z) (nl la : bool).
Let G := Fbs g k nl la.
Lemma E_chosen v x y : E G (chv G v) (List.length (g_edgeInfo g)) x y <-> chosen g v x y.
Proof.
  unfold E, chosen, chv. cbn. split.
  - intros (a & e & _ & He & Hc & Hj). exists a, e. split; [done|]. split; [|done]. unfold edgeSize. apply negb_true_iff, Nat.eqb_neq in Hc. done.
  - intros (a & e & He & Hc & Hj). exists a, e. split; [by apply lookup_lt_Some in He|]. split; [done|]. split; [|done]. by apply negb_true_iff, Nat.eqb_neq.
Qed.
Lemma C_conn v x y : C G (chv G v) (List.length (g_edgeInfo g)) x y <-> connected g v x y.
Proof. apply rtc_ext. intros. apply E_chosen. Qed.
Lemma free_iff v x : free G (chv G v) x <-> free_edge g v x.
Proof.
  unfold free, free_edge. split; intros [[y Hy] Hc]; (split; [exists y; by apply E_chosen|]); intros z Hz; apply Hc; by apply C_conn.
Qed.
Lemma but_iff v a x y : Ebut G (chv G v) a (List.length (g_edgeInfo g)) x y <-> chosen_but g v a x y.
Proof.
  unfold Ebut, chosen_but, chv. cbn. split.
  - intros (b & e & Hb & _ & He & Hc & Hj). exists b, e. split; [done|]. split; [done|]. split; [|done]. unfold edgeSize. apply negb_true_iff, Nat.eqb_neq in Hc. done.
  - intros (b & e & Hb & He & Hc & Hj). exists b, e. split; [done|]. split; [by apply lookup_lt_Some in He|]. split; [done|]. split; [|done]. by apply negb_true_iff, Nat.eqb_neq.
Qed.
Lemma good_iff v : good G (chv G v) <-> fbs_good g k nl v.
Proof.
  unfold good, fbs_good. change (fb_graph G) with g. change (fb_numUEC G) with k. change (fb_noLoop G) with nl.
  assert (HA : forall (P Q P' Q' P'' Q'' : Prop), (P <-> Q) -> (P' <-> Q') -> (P'' <-> Q'') -> P /\ P' /\ P'' <-> Q /\ Q' /\ Q'') by (clear; tauto). apply HA; clear HA.
  - split; intros H x y; [intros _ _|]; intros Hx Hy; [rewrite <- C_conn; by apply H|rewrite C_conn; apply H; [by apply color_out|by apply color_out|done|done]].
  - unfold free_components. split; intros H H0; destruct (H H0) as (R & Hnd & Hl & HF & HU); exists R; (split; [done|]); (split; [lia|]); split.
    + intros r Hr. by apply free_iff, HF.
    + intros x Hx. apply free_iff in Hx. destruct (HU x Hx) as (r & [Hr1 Hr2] & Hr3). exists r. split; [split; [done|by apply C_conn]|]. intros r' Hr' Hc. apply Hr3; [done|]. by apply C_conn.
    + intros r Hr. by apply free_iff, HF.
    + intros x Hx. apply free_iff in Hx. destruct (HU x Hx) as (r & [Hr1 Hr2] & Hr3). exists r. split; [split; [done|by apply C_conn]|]. intros r' Hr' Hc. apply Hr3; [done|]. by apply C_conn.
  - unfold acyclic. split; intros H H0 a e He Hc Hr.
    + apply (H H0 a e He); [unfold chv; by apply negb_true_iff, Nat.eqb_neq|]. eapply rtc_ext; [|exact Hr]. intros. apply but_iff.
    + apply (H H0 a e He); [unfold chv in Hc; apply negb_true_iff, Nat.eqb_neq in Hc; done|]. eapply rtc_ext; [|exact Hr]. intros. symmetry. apply but_iff.
Qed.
Lemma fbs_main v : zdd_sem (fb_spec G) (edgeSize g) v = true <-> fbs_good g k nl v.
Proof. rewrite <- good_iff. apply (fb_sem G (gr_numbering _ _ _ Hg) HL Hm (fun x => color_out g x) Hk H1). Qed.
Lemma fbs_root : is_Some (fb_root G).
Proof. destruct (root_ok G (gr_numbering _ _ _ Hg) HL Hm (fun x => color_out g x) Hk H1 (fun _ => false)) as (s & -> & _). by eexists. Qed.
Lemma fbs_safe l s b : reach (fb_spec G) l s -> is_Some (fb_child G s (Z.to_nat l) b).
Proof. apply (fb_safe G (gr_numbering _ _ _ Hg) HL Hm (fun x => color_out g x) Hk H1). Qed.
Lemma fbs_levels l s b : reach (fb_spec G) l s -> (-1 <= fst (get_child (fb_spec G) s l b) < l)%Z.
Proof. apply (fb_levels G (gr_numbering _ _ _ Hg) HL Hm (fun x => color_out g x) Hk H1). Qed.
End spec.

Section names.
Context (names : list edge_name) (n2c : list (string * string)) (g : graph).
Context (Hg : graph_ok names n2c g) (Hn2c : forall s c, (s, c) ∈ n2c -> vertex_name_in names s).
Notation nm := (vertexName g).
Notation en := (g_edge2name g).

(** a relation on numbers and one on names that agree *)
Lemma rtc_names (R : nat -> nat -> Prop) (S : string -> string -> Prop) :
  (forall x y, R x y -> inr g x /\ inr g y) -> (forall s t, S s t -> exists x y, inr g x /\ inr g y /\ s = nm x /\ t = nm y) ->
  (forall x y, inr g x -> inr g y -> R x y <-> S (nm x) (nm y)) ->
  (forall x y, inr g x -> rtc R x y -> inr g y /\ rtc S (nm x) (nm y)) /\
  (forall s t x, inr g x -> s = nm x -> rtc S s t -> exists y, inr g y /\ t = nm y /\ rtc R x y).
Proof.
  intros HR HS HRS. split.
  - intros x y Hx H. revert Hx. induction H as [x|x z y Hxz _ IH]; intros Hx; [done|]. destruct (HR _ _ Hxz) as [_ Hz]. destruct (IH Hz) as [Hy Hr]. split; [done|].
    eapply rtc_l; [|exact Hr]. by apply HRS.
  - intros s t x Hx E H. revert x Hx E. induction H as [s|s u t Hsu _ IH]; intros x Hx E; [by exists x|]. destruct (HS _ _ Hsu) as (x' & z & Hx' & Hz & E1 & ->).
    destruct (IH z Hz eq_refl) as (y & Hy & -> & Hr). exists y. split; [done|]. split; [done|]. eapply rtc_l; [|exact Hr]. apply HRS; [done|done|]. by rewrite <- E.
Qed.
Lemma conn_names v x y : inr g x -> inr g y -> connected g v x y <-> connected_named en v (nm x) (nm y).
Proof.
  intros Hx Hy. destruct (rtc_names (chosen g v) (chosen_named en v)) as [A B].
  - intros. by eapply (chosen_range names n2c g Hg).
  - intros s t. apply (chosen_named_range names n2c g Hg).
  - intros. by apply (chosen_iff names n2c g Hg).
  - split; [intros H; by apply A|]. intros H. destruct (B _ _ x Hx eq_refl H) as (y' & Hy' & E & Hr). by rewrite (nm_inj names n2c g Hg y y' Hy Hy' E).
Qed.
Lemma conn_range v x y : inr g x -> connected g v x y -> inr g y.
Proof.
  intros Hx H. revert Hx. induction H as [|x z y Hxz _ IH]; [done|]. intros _. apply IH. by destruct (chosen_range names n2c g Hg v _ _ Hxz).
Qed.
Lemma conn_named_range v x t : inr g x -> connected_named en v (nm x) t -> exists y, inr g y /\ t = nm y.
Proof.
  intros Hx H. remember (nm x) as s eqn:E. revert x Hx E. induction H as [s|s u t Hsu _ IH]; intros x Hx E; [by exists x|].
  destruct (chosen_named_range names n2c g Hg v s u Hsu) as (_ & z & _ & Hz & _ & ->). by apply (IH z).
Qed.
Lemma free_names v x : inr g x -> free_edge g v x <-> free_named en n2c v (nm x).
Proof.
  intros Hx. unfold free_edge, free_named. split.
  - intros [[y Hy] Hc]. split.
    + destruct (chosen_range names n2c g Hg v x y Hy) as [_ Hyr]. exists (nm y). by apply (chosen_iff names n2c g Hg v x y Hx Hyr).
    + intros t c Ht Hin. destruct (conn_named_range v x t Hx Ht) as (z & Hz & ->). apply (color_pos names n2c g Hg z c Hz Hin). apply Hc. by apply conn_names.
  - intros [[t Ht] Hc]. split.
    + destruct (conn_named_range v x t Hx (rtc_once _ _ Ht)) as (y & Hy & ->). exists y. by apply (chosen_iff names n2c g Hg).
    + intros y Hy. destruct (decide (colorNumber g y = 0)) as [|Hn]; [done|]. pose proof (conn_range v x y Hx Hy) as Hry. destruct (color_some names n2c g Hg y Hry Hn) as [c Hin].
      exfalso. apply (Hc (nm y) c); [|done]. by apply conn_names.
Qed.
Lemma but_names v a : (forall x y, chosen_but g v a x y -> inr g x /\ inr g y) /\
  (forall s t, chosen_named_but en v a s t -> exists x y, inr g x /\ inr g y /\ s = nm x /\ t = nm y) /\
  forall x y, inr g x -> inr g y -> chosen_but g v a x y <-> chosen_named_but en v a (nm x) (nm y).
Proof.
  split_and!.
  - intros x y (b & e & _ & He & Hv & Hj). apply (chosen_range names n2c g Hg v). by exists b, e.
  - intros s t (b & e & _ & He & Hv & Hj). apply (chosen_named_range names n2c g Hg v). by exists b, e.
  - intros x y Hx Hy. pose proof (gr_edgeSize _ _ _ Hg) as Hes. split.
    + intros (b & i & Hb & Hi & Hv & Hj). destruct (info_en names n2c g Hg b i Hi) as [f Hf]. exists b, f. split; [done|]. split; [done|]. rewrite <- Hes. split; [done|].
      destruct f as [s t]. destruct (gr_ends _ _ _ Hg b _ i Hf Hi) as [[E1 E2]|[E1 E2]]; apply (get_nm names n2c g Hg) in E1 as [_ E1]; apply (get_nm names n2c g Hg) in E2 as [_ E2]; cbn [fst snd] in E1, E2; subst;
      destruct Hj as [[-> ->]|[-> ->]]; (by left) || (by right).
    + intros (b & f & Hb & Hf & Hv & Hj). destruct (en_info names n2c g Hg b f Hf) as [i Hi]. exists b, i. split; [done|]. split; [done|]. rewrite Hes. split; [done|].
      pose proof (nm_get names n2c g Hg x Hx) as Gx. pose proof (nm_get names n2c g Hg y Hy) as Gy. unfold joins.
      destruct (gr_ends _ _ _ Hg b f i Hf Hi) as [[E1 E2]|[E1 E2]]; destruct Hj as [->| ->]; cbn [fst snd] in E1, E2; rewrite ?Gx, ?Gy in E1; rewrite ?Gx, ?Gy in E2; injection E1 as <-; injection E2 as <-; tauto.
Qed.
Lemma but_conn v a x y : inr g x -> inr g y -> rtc (chosen_but g v a) x y <-> rtc (chosen_named_but en v a) (nm x) (nm y).
Proof.
  intros Hx Hy. destruct (but_names v a) as (K1 & K2 & K3). destruct (rtc_names _ _ K1 K2 K3) as [A B].
  split; [intros H; by apply A|]. intros H. destruct (B _ _ x Hx eq_refl H) as (y' & Hy' & E & Hr). by rewrite (nm_inj names n2c g Hg y y' Hy Hy' E).
Qed.
Lemma but_sym v a s t : rtc (chosen_named_but en v a) s t -> rtc (chosen_named_but en v a) t s.
Proof.
  induction 1 as [|s u t H _ IH]; [done|]. eapply rtc_r; [exact IH|]. destruct H as (b & e & Hb & He & Hv & Hj). exists b, e. split_and!; [done|done|done|]. clear -Hj. tauto.
Qed.
Lemma free_range v x : free_edge g v x -> inr g x.
Proof. intros [[y Hy] _]. by destruct (chosen_range names n2c g Hg v _ _ Hy). Qed.
Lemma free_named_range v s : free_named en n2c v s -> exists x, inr g x /\ s = nm x.
Proof. intros [[t Ht] _]. destruct (chosen_named_range names n2c g Hg v s t Ht) as (x & _ & Hx & _ & -> & _). by exists x. Qed.

Lemma fbs_names k nl v : fbs_good g k nl v <-> fbs_named en n2c k nl v.
Proof.
  unfold fbs_good, fbs_named.
  assert (HA : forall (P Q P' Q' P'' Q'' : Prop), (P <-> Q) -> (P' <-> Q') -> (P'' <-> Q'') -> P /\ P' /\ P'' <-> Q /\ Q' /\ Q'') by (clear; tauto). apply HA; clear HA.
  - split.
    + intros H s c t d Hs Ht. destruct (n2c_vertex names n2c g Hg Hn2c s c Hs) as (x & Hx & ->). destruct (n2c_vertex names n2c g Hg Hn2c t d Ht) as (y & Hy & ->).
      rewrite <- conn_names by done. rewrite (H x y Hx Hy) by (by eapply (color_pos names n2c g Hg)).
      by apply (gr_color_eq _ _ _ Hg _ _ x y c d (nm_get names n2c g Hg x Hx) (nm_get names n2c g Hg y Hy)).
    + intros H x y Hx Hy Cx Cy. destruct (color_some names n2c g Hg x Hx Cx) as [c Hc]. destruct (color_some names n2c g Hg y Hy Cy) as [d Hd].
      rewrite conn_names by done. rewrite (H _ c _ d Hc Hd). symmetry. by apply (gr_color_eq _ _ _ Hg _ _ x y c d (nm_get names n2c g Hg x Hx) (nm_get names n2c g Hg y Hy)).
  - unfold free_components. split; intros H H0; destruct (H H0) as (R & Hnd & Hl & HF & HU).
    + assert (HR : Forall (inr g) R) by (apply Forall_forall; intros r Hr; by eapply free_range, HF).
      exists (map nm R). split; [by apply (nm_nodup names n2c g Hg)|]. split; [by rewrite map_length|]. rewrite Forall_forall in HR. split.
      * intros r Hr. apply elem_of_map in Hr as (x & -> & Hx). apply free_names; [by apply HR|by apply HF].
      * intros s Hs. destruct (free_named_range v s Hs) as (x & Hx & ->). apply free_names in Hs; [|done]. destruct (HU x Hs) as (r & [Hr1 Hr2] & Hr3). exists (nm r). split; [split|].
        -- apply elem_of_map. by exists r.
        -- apply conn_names; [done|by apply HR|done].
        -- intros r' Hr' Hc. apply elem_of_map in Hr' as (y & -> & Hy). f_equal. apply Hr3; [done|]. apply conn_names; [done|by apply HR|done].
    + destruct (nm_list g R) as (K & -> & HK); [intros s Hs; by apply (free_named_range v), HF|]. exists K. split; [by apply (nm_nodup names n2c g Hg)|]. split; [by rewrite map_length in Hl|].
      rewrite Forall_forall in HK. split.
      * intros r Hr. apply free_names; [by apply HK|]. apply HF, elem_of_map. by exists r.
      * intros x Hx. pose proof (free_range v x Hx) as Hix. apply free_names in Hx; [|done]. destruct (HU _ Hx) as (r & [Hr1 Hr2] & Hr3). apply elem_of_map in Hr1 as (z & -> & Hz).
        exists z. split; [split; [done|apply conn_names; [done|by apply HK|done]]|]. intros r' Hr' Hc. apply (nm_inj names n2c g Hg); [by apply HK|by apply HK|]. apply Hr3.
        -- apply elem_of_map. by exists r'.
        -- apply conn_names; [done|by apply HK|done].
  - unfold acyclic. pose proof (gr_edgeSize _ _ _ Hg) as Hes. split; intros H H0 a e He Hv Hr.
    + destruct (en_info names n2c g Hg a e He) as [i Hi]. rewrite <- Hes in Hv. apply (H H0 a i Hi Hv). destruct (no_range _ _ (gr_numbering _ _ _ Hg) _ _ Hi) as (R1 & R2 & R3 & R4).
      apply but_conn; [unfold inr; lia|unfold inr; lia|].
      destruct (gr_ends _ _ _ Hg a e i He Hi) as [[E1 E2]|[E1 E2]]; apply (get_nm names n2c g Hg) in E1 as [_ E1]; apply (get_nm names n2c g Hg) in E2 as [_ E2]; rewrite E1, E2 in Hr; [done|by apply but_sym].
    + destruct (info_en names n2c g Hg a e He) as [f Hf]. rewrite Hes in Hv. apply (H H0 a f Hf Hv). destruct (no_range _ _ (gr_numbering _ _ _ Hg) _ _ He) as (R1 & R2 & R3 & R4).
      apply but_conn in Hr; [|unfold inr; lia|unfold inr; lia].
      destruct (gr_ends _ _ _ Hg a f e Hf He) as [[E1 E2]|[E1 E2]]; apply (get_nm names n2c g Hg) in E1 as [_ E1]; apply (get_nm names n2c g Hg) in E2 as [_ E2]; rewrite E1, E2; [done|by apply but_sym].
Qed.
End names.
