(** ddpaths: degrees of cycles, path systems and tours, and the sets each option computes. *)
From stdpp Require Import strings gmap.
From Verif Require Import Base Sem M_Table M_Engine M_Builder P_Builder M_Ops M_Conv M_Subset M_Size S_Spec P_Size M_Graph S_Graph P_Graph5 M_Degree S_Degree P_Front P_Degree
  M_Simpath S_Simpath P_Simpath1 P_Simpath3 P_Simpath5 P_Uncolored M_PathMap S_PathMap P_PathMap2 M_Fbs S_Fbs.
From Verif Require Import Props_Reduce Props_Size Props_Degree Props_Simpath Props_PathMap Props_Fbs S_Api P_Api Props_Api S_Ddpaths M_Ddpaths.
Local Open Scope nat_scope.

(** ** the degree of a vertex is the number of its neighbours *)
Section degree.
Context (v : vec) (x : nat).
Fixpoint nbs (es : list edge_info) : list nat :=
  match es with
  | [] => []
  | e :: es' => (if v (length es) =? 0 then [] else if e_v1 e =? x then [e_v2 e] else if e_v2 e =? x then [e_v1 e] else []) ++ nbs es'
  end.
Lemma nbs_degree es : Forall (fun e => e_v1 e <> e_v2 e) es -> degree es v x = Z.of_nat (length (nbs es)).
Proof.
  induction es as [|e es IH]; intros HF; [done|]. inversion HF as [|? ? He HF']; subst. cbn [degree nbs]. rewrite IH by done. rewrite app_length.
  destruct (v (length (e :: es)) =? 0); [cbn; lia|]. destruct (Nat.eqb_spec (e_v1 e) x), (Nat.eqb_spec (e_v2 e) x); cbn; lia.
Qed.
Lemma nbs_in es y : y ∈ nbs es <-> exists a e, es !! a = Some e /\ v (length es - a) <> 0 /\ joins e x y.
Proof.
  induction es as [|e es IH]; cbn [nbs].
  - split; [intros H; by apply elem_of_nil in H|]. by intros (a & e & H & _).
  - rewrite elem_of_app, IH. split.
    + intros [H|(a & f & H)]; [|exists (S a), f; done]. exists 0, e. split; [done|]. rewrite Nat.sub_0_r.
      destruct (Nat.eqb_spec (v (length (e :: es))) 0); [by apply elem_of_nil in H|]. split; [done|]. unfold joins.
      destruct (Nat.eqb_spec (e_v1 e) x), (Nat.eqb_spec (e_v2 e) x); try (apply elem_of_list_singleton in H; subst; tauto). by apply elem_of_nil in H.
    + intros ([|a] & f & H1 & H2 & H3); [left|right; by exists a, f]. injection H1 as ->. rewrite Nat.sub_0_r in H2. rewrite (proj2 (Nat.eqb_neq _ _) H2).
      unfold joins in H3. destruct (Nat.eqb_spec (e_v1 f) x), (Nat.eqb_spec (e_v2 f) x); try apply elem_of_list_singleton; try lia.
Qed.
Lemma nbs_nodup es : (forall a b e f y, es !! a = Some e -> es !! b = Some f -> joins e x y -> joins f x y -> a = b) -> NoDup (nbs es).
Proof.
  induction es as [|e es IH]; intros Hs; cbn [nbs]; [constructor|]. apply NoDup_app. split; [|split].
  - destruct (_ =? 0); [constructor|]. destruct (_ =? _); [apply NoDup_singleton|]. destruct (_ =? _); [apply NoDup_singleton|constructor].
  - intros y H1 H2. apply nbs_in in H2 as (a & f & Hf & _ & Hj). enough (0 = S a) by lia. apply (Hs 0 (S a) e f y); [done|done| |done].
    destruct (_ =? 0); [by apply elem_of_nil in H1|]. unfold joins.
    destruct (Nat.eqb_spec (e_v1 e) x), (Nat.eqb_spec (e_v2 e) x); try (apply elem_of_list_singleton in H1; subst; tauto). by apply elem_of_nil in H1.
  - apply IH. intros a b f f' y H1 H2 H3 H4. enough (S a = S b) by lia. by apply (Hs (S a) (S b) f f' y).
Qed.
End degree.

Section graph.
Context (g : graph) (HP : search_graph g).
Let n := edgeSize g.

Lemma deg_list v x L : NoDup L -> (forall y, chosen g v x y <-> y ∈ L) -> degree (g_edgeInfo g) v x = Z.of_nat (length L).
Proof.
  intros HL HC. destruct HP as (HN & Hlf & _). rewrite nbs_degree.
  - f_equal. apply Permutation_length, NoDup_Permutation; [|done|].
    + apply nbs_nodup. intros a b e f y He Hf H1 H2. pose proof (no_range _ _ HN _ _ He) as (_ & _ & R1 & _). pose proof (no_range _ _ HN _ _ Hf) as (_ & _ & R2 & _).
      apply (no_simple _ _ HN a b e f He Hf); unfold joins in *; lia.
    + intros y. rewrite nbs_in, <- HC. done.
  - apply Forall_lookup. intros a e. apply Hlf.
Qed.
(** what -dc asks for *)
Definition deg_good (v : vec) : Prop := forall x, 1 <= x <= vertexSize g ->
  if colorNumber g x =? 0 then degree (g_edgeInfo g) v x = 0%Z \/ degree (g_edgeInfo g) v x = 2%Z else degree (g_edgeInfo g) v x = 1%Z.
Lemma some_or_none v x : (exists y, chosen g v x y) \/ ~ exists y, chosen g v x y.
Proof.
  destruct (nbs v x (g_edgeInfo g)) as [|y l] eqn:E.
  - right. intros [y Hy]. assert (y ∈ nbs v x (g_edgeInfo g)) as H by (apply nbs_in; exact Hy). rewrite E in H. by apply elem_of_nil in H.
  - left. exists y. assert (y ∈ nbs v x (g_edgeInfo g)) as H by (rewrite E; left). by apply nbs_in in H.
Qed.
Lemma degs_good v : degs (vertexSize g) (colorNumber g) (chosen g v) -> deg_good v.
Proof.
  intros [D1 D2 D3] x Hx. destruct (Nat.eqb_spec (colorNumber g x) 0) as [Hc|Hc].
  - destruct (some_or_none v x) as [[y Hy]|Hno].
    + right. destruct (D2 x y Hc Hy) as (a & b & Hab & H). rewrite (deg_list v x [a; b]); [done| |].
      * constructor; [by intros ?%elem_of_list_singleton|apply NoDup_singleton].
      * intros z. rewrite H, elem_of_cons, elem_of_list_singleton. done.
    + left. rewrite (deg_list v x []); [done|constructor|]. intros z. rewrite elem_of_nil. split; [|done]. intros H. apply Hno. by exists z.
  - destruct (D3 x Hx Hc) as [a Ha]. rewrite (deg_list v x [a]); [done|apply NoDup_singleton|]. intros z. rewrite Ha, elem_of_list_singleton. done.
Qed.
Lemma degs_ext m col (E E' : nat -> nat -> Prop) : (forall x y, E x y <-> E' x y) -> degs m col E -> degs m col E'.
Proof.
  intros H [D1 D2 D3]. constructor.
  - intros x y. rewrite <- !H. apply D1.
  - intros x y Hc Hy. apply H in Hy. destruct (D2 x y Hc Hy) as (a & b & Hab & Hz). exists a, b. split; [done|]. intros z. by rewrite <- H.
  - intros x Hx Hc. destruct (D3 x Hx Hc) as [a Ha]. exists a. intros z. by rewrite <- H.
Qed.
Lemma cycle_degrees v : (forall x, colorNumber g x = 0) -> is_cycle g v -> deg_good v.
Proof. intros Hc [c H]. apply degs_good. apply (cg_degs _ _ _ (cycle_good (vertexSize g) (colorNumber g) (chosen g v) c Hc H)). Qed.
Lemma chosen_in v x y : chosen g v x y -> 1 <= x <= vertexSize g.
Proof. intros (a & e & He & _ & Hj). destruct HP as (HN & _). destruct (no_range _ _ HN _ _ He) as (R1 & R2 & R3 & R4). unfold joins in Hj. lia. Qed.
Lemma links_degrees names n2c v : graph_ok names n2c g -> g_hasColorPairs g = true -> is_links g v -> deg_good v.
Proof.
  intros Hg Hp [ps H]. apply degs_good.
  destruct (links_done (vertexSize g) (g_numColor g) (colorNumber g) (color_out g) (gr_color_range _ _ _ Hg) (gr_color_all _ _ _ Hg) (pairs_of _ _ _ Hg Hp) (chosen g v) ps (chosen_in v) H) as [P HPp].
  exact (pg_degs _ _ _ (done_good (vertexSize g) (g_numColor g) (colorNumber g) (color_out g) (gr_color_range _ _ _ Hg) (gr_color_all _ _ _ Hg) (pairs_of _ _ _ Hg Hp) P (chosen g v) HPp)).
Qed.
(** all colored vertices are paired *)
Definition paired : Prop := forall x, 1 <= x <= vertexSize g -> colorNumber g x <> 0 -> virtualMate g x <> 0.
Lemma tour_degrees v : (forall x, virtualMate g x <> 0 -> 1 <= x <= vertexSize g /\ 1 <= virtualMate g x /\ colorNumber g x <> 0) -> paired -> is_tour g v -> deg_good v.
Proof.
  intros Hvm Hp [c H].
  assert (Hout : forall x, virtualMate g x <> 0 -> vertexSize g < mid g x) by (intros x Hx; destruct (Hvm x Hx) as (A & B & _); unfold mid; lia). apply degs_good.
  pose proof (cg_degs _ _ _ (cycle_good (vertexSize g) (fun _ => 0) (joined g v) c (fun _ => eq_refl) H)) as [D1 D2 _].
  assert (Hsym : forall x y, chosen g v x y -> chosen g v y x). { intros x y (a & e & He & Hv & Hj). exists a, e. split; [done|]. split; [done|]. unfold joins in *. tauto. }
  assert (Hhalf : forall x y, 1 <= x <= vertexSize g -> virtual_half g x y <-> virtualMate g x <> 0 /\ y = mid g x).
  { intros x y Hx. split.
    - intros (s & Hs & [[-> ->]|[-> ->]]); [done|]. pose proof (Hout s Hs). lia.
    - intros [Hm ->]. exists x. split; [done|]. by left. }
  assert (Hmid : forall x, virtualMate g x <> 0 -> ~ chosen g v x (mid g x)).
  { intros x Hm Hc%Hsym%chosen_in. pose proof (Hout x Hm). lia. }
  constructor; [done| |].
  - intros x y Hc Hy. destruct (D2 x y eq_refl (or_introl Hy)) as (a & b & Hab & Hz). exists a, b. split; [done|]. intros z. rewrite <- Hz. unfold joined.
    split; [by left|]. intros [Hch|Hh]; [done|]. apply chosen_in in Hy. apply Hhalf in Hh as [Hm _]; [|done].
    by destruct (Hvm x Hm) as (_ & _ & Hn).
  - intros x Hx Hc. pose proof (Hp x Hx Hc) as Hm. assert (Hh : virtual_half g x (mid g x)) by (apply Hhalf; done).
    destruct (D2 x _ eq_refl (or_intror Hh)) as (a & b & Hab & Hz).
    assert (Hw : forall z, chosen g v x z <-> (z = a \/ z = b) /\ z <> mid g x).
    { intros z. rewrite <- Hz. unfold joined. split.
      - intros Hch. split; [by left|]. intros ->. by apply (Hmid x Hm).
      - intros [[Hch|Hz'] Hne]; [done|]. apply Hhalf in Hz' as [_ ->]; done. }
    assert (mid g x = a \/ mid g x = b) as [E|E] by (apply Hz; by right); [exists b|exists a]; intros z; rewrite Hw, E; split; try naive_solver.
Qed.

(** ** the specifications as steps of an API program *)
Lemma deg_spec_top G : top_level (deg_spec G) <= edgeSize (dc_graph G).
Proof. unfold top_level. cbn [deg_spec get_root deg_root fst]. unfold dc_n. lia. Qed.

Lemma pd_degrees_cons : exists G, pd_degrees g = Some G /\ dc_graph G = g /\ length (dc_cons G) = S (vertexSize g) /\ dc_lookahead G = true /\
  forall x, 1 <= x <= vertexSize g -> dc_cons G !! x = Some (Some (if colorNumber g x =? 0 then int_range 0 2 2 else int_range 1 1 1)).
Proof.
  unfold pd_degrees. set (c := fun v => if colorNumber g v =? 0 then int_range 0 2 2 else int_range 1 1 1).
  change (foldl _ _ _) with (foldl (fun G v => G ← G; deg_set G v (Some (c v))) (Some (deg_new g None true)) (seq 1 (vertexSize g))).
  assert (forall k, k <= vertexSize g -> exists G, foldl (fun G v => G ← G; deg_set G v (Some (c v))) (Some (deg_new g None true)) (seq 1 k) = Some G /\
    dc_graph G = g /\ length (dc_cons G) = S (vertexSize g) /\ dc_lookahead G = true /\ forall x, 1 <= x <= k -> dc_cons G !! x = Some (Some (c x))) as H.
  { induction k as [|k IH]; intros Hk.
    - exists (deg_new g None true). cbn. rewrite replicate_length. split_and!; [done..|]. intros. lia.
    - destruct IH as (G & E & G1 & G2 & G3 & G4); [lia|]. rewrite seq_S, foldl_app, E. cbn [foldl mbind option_bind]. unfold deg_set. rewrite G1.
      rewrite (proj2 (Nat.ltb_ge (1 + k) 1)), (proj2 (Nat.ltb_ge (vertexSize g) (1 + k))) by lia. cbn [orb]. eexists. split; [done|]. cbn [dc_graph dc_cons dc_lookahead].
      rewrite insert_length. split_and!; [done..|]. intros x Hx. destruct (decide (x = 1 + k)) as [->|Hne]; [by rewrite list_lookup_insert by lia|].
      rewrite list_lookup_insert_ne by done. apply G4. lia. }
  destruct (H (vertexSize g)) as (G & E & K); [done|]. by exists G.
Qed.

Lemma deg_cons_ok v G : pd_degrees g = Some G -> dc_graph G = g -> (forall x, 1 <= x <= vertexSize g -> dc_cons G !! x = Some (Some (if colorNumber g x =? 0 then int_range 0 2 2 else int_range 1 1 1))) ->
  degrees_ok g (dc_cons G) v <-> deg_good v.
Proof.
  intros _ _ Hc. unfold degrees_ok, deg_good. split.
  - intros H x Hx. specialize (H x _ Hx (Hc x Hx)). destruct (colorNumber g x =? 0).
    + apply (proj1 (C27_int_range 0 2 2 ltac:(lia))) in H as (k & H1 & H2 & H3). lia.
    + apply (proj1 (C27_int_range 1 1 1 ltac:(lia))) in H as (k & H1 & H2 & H3). lia.
  - intros H x c Hx E. rewrite (Hc x Hx) in E. injection E as <-. specialize (H x Hx). destruct (colorNumber g x =? 0).
    + apply (proj1 (C27_int_range 0 2 2 ltac:(lia))). destruct H as [->| ->]; [exists 0%Z|exists 1%Z]; lia.
    + apply (proj1 (C27_int_range 1 1 1 ltac:(lia))). rewrite H. exists 0%Z. lia.
Qed.
Lemma deg_api G : pd_degrees g = Some G ->
  api_spec 2 n AZdd (deg_spec G) (means AZdd (deg_spec G) n) /\ forall v, means AZdd (deg_spec G) n v = true <-> deg_good v.
Proof.
  intros E. destruct pd_degrees_cons as (G' & E' & G1 & G2 & G3 & G4). assert (G' = G) as -> by congruence. pose proof HP as (HN & HL & H1 & Hm).
  assert (HC : forall x c, (1 <= x <= vertexSize (dc_graph G)) -> dc_cons G !! x = Some c -> countable (edgeSize (dc_graph G)) c).
  { rewrite G1. intros x c Hx Hc. rewrite (G4 x Hx) in Hc. injection Hc as <-. intros c' Ec. injection Ec as <-.
    destruct (colorNumber g x =? 0); (split; [|left; cbn; lia]); intros y Hy Hc; [apply (proj2 (C27_int_range 0 2 2 ltac:(lia)) n y Hy Hc)|apply (proj2 (C27_int_range 1 1 1 ltac:(lia)) n y Hy Hc)]. }
  destruct (C29_contract G) as (O1 & O2 & O3 & _); [rewrite G1; exact HN|by rewrite G1|by rewrite G1|done|].
  split; [apply as_user; [done|done|done|done|]; pose proof (deg_spec_top G) as Ht; by rewrite G1 in Ht|].
  intros v. cbn [means]. rewrite <- (deg_cons_ok v G E G1 G4). pose proof (proj1 (C29_degree_constraint G v ltac:(rewrite G1; exact HN) ltac:(by rewrite G1) ltac:(by rewrite G1) ltac:(by rewrite G1) HC)) as HD.
  rewrite G1 in HD. exact HD.
Qed.

Notation sized := (sized g).
Lemma edges_few : n <= vertexSize g * vertexSize g.
Proof.
  destruct HP as (HN & _). unfold n, edgeSize.
  rewrite <- (map_length (fun e => (e_v1 e, e_v2 e)) (g_edgeInfo g)).
  replace (vertexSize g * vertexSize g) with (length (list_prod (seq 1 (vertexSize g)) (seq 1 (vertexSize g)))) by (by rewrite prod_length, seq_length).
  apply submseteq_length, NoDup_submseteq.
  - apply NoDup_alt. intros a b p Ha Hb. rewrite list_lookup_fmap in Ha, Hb. destruct (g_edgeInfo g !! a) as [e|] eqn:Ea; [|done]. destruct (g_edgeInfo g !! b) as [f|] eqn:Eb; [|done].
    cbn in Ha, Hb. injection Ha as <-. injection Hb as H1 H2. apply (no_simple _ _ HN a b e f Ea Eb); congruence.
  - intros p Hp. apply elem_of_list_fmap in Hp as (e & -> & He). apply elem_of_list_lookup in He as [a He]. destruct (no_range _ _ HN _ _ He) as (R1 & R2 & R3 & R4).
    apply elem_of_list_In, in_prod; apply in_seq; lia.
Qed.
Lemma chosen_bounds v k : (0 <= S_Spec.chosen v k <= Z.of_nat k)%Z.
Proof. induction k as [|k IH]; cbn [S_Spec.chosen]; [lia|]. destruct (_ =? 0); lia. Qed.
Lemma size_api lb ub : let sp := size_spec (Z.of_nat n) (Some (pd_range lb ub)) in
  api_spec 2 n AZdd sp (means AZdd sp n) /\ forall v, means AZdd sp n v = true <-> sized lb ub v.
Proof.
  intros sp. pose proof HP as (HN & HL & H1 & Hm). destruct (C27_contract n (Some (pd_range lb ub))) as (O1 & O2 & O3 & _).
  split.
  - apply as_user; [done|done|done|done|]. unfold top_level. cbn [sp size_spec get_root size_root fst]. destruct (_ <? _)%Z; lia.
  - intros v. unfold sp. cbn [means]. destruct (C27_size_constraint n (Some (pd_range lb ub)) v H1) as [-> _].
    { intros c Ec. injection Ec as <-. unfold pd_range. by apply C27_int_range. }
    unfold pd_range. rewrite (proj1 (C27_int_range _ _ 1 ltac:(lia))). pose proof (chosen_bounds v n) as HB. pose proof edges_few as HF.
    assert (Z.of_nat n <= int_max)%Z by (unfold int_max; nia). unfold S_Ddpaths.sized. fold n. split.
    + intros (k & K1 & K2 & K3). split; [intros l ->|intros u ->]; cbn [from_option id] in *; unfold id in *; lia.
    + intros [A B]. exists (S_Spec.chosen v n - default 0 lb)%Z. destruct lb as [l|], ub as [u|]; cbn [from_option id]; unfold id; try specialize (A _ eq_refl); try specialize (B _ eq_refl); lia.
Qed.

Lemma start_api dc f : pd_start g dc f -> exists P, api_dd 2 n AZdd f P /\ forall v, P v = true <-> (dc = true -> deg_good v).
Proof.
  unfold pd_start. destruct dc.
  - intros (G & d & E & HC & HR). destruct (deg_api G E) as [A B]. eexists. split; [eapply ad_reduce; [eapply ad_construct; [exact A|exact HC]|exact HR]|].
    intros v. rewrite B. naive_solver.
  - intros E. eexists. split; [by apply ad_universal|]. done.
Qed.
Lemma start_ex dc : exists f, pd_start g dc f.
Proof.
  unfold pd_start. destruct (C54_progress 2 n ltac:(lia)) as (PS & PD & _ & PU). destruct dc; [|by destruct PU as [f E]; exists f].
  destruct (pd_degrees_cons) as (G & E & _). destruct (deg_api G E) as [A _]. destruct (PS _ _ _ A) as [[d Ed] _].
  destruct (PD _ _ _ (ad_construct 2 n _ _ _ _ A (con_sequential _ _ Ed))) as (_ & ([f Ef] & _) & _).
  exists f, G, d. split; [done|]. split; [by apply con_sequential|by apply red_sequential].
Qed.
Lemma sized_none v : sized None None v.
Proof. split; by intros. Qed.
Lemma size_step lb ub f P f' : api_dd 2 n AZdd f P -> pd_sized g lb ub f f' ->
  exists P', api_dd 2 n AZdd f' P' /\ forall v, P' v = true <-> P v = true /\ sized lb ub v.
Proof.
  intros HA HS. unfold pd_sized in HS. destruct (o_bounded lb ub) eqn:Eb.
  - destruct HS as (d & HS & HR). destruct (size_api lb ub) as [A B]. eexists. split; [eapply ad_reduce; [eapply ad_subset; [exact HA|exact A|exact HS]|exact HR]|].
    intros v. cbn beta. rewrite andb_true_iff, B. done.
  - subst f'. exists P. split; [done|]. intros v. destruct lb, ub; try done. pose proof (sized_none v). tauto.
Qed.
Lemma size_ex lb ub f P : api_dd 2 n AZdd f P -> exists f', pd_sized g lb ub f f'.
Proof.
  intros HA. unfold pd_sized. destruct (o_bounded lb ub); [|by eexists]. destruct (size_api lb ub) as [A _].
  destruct (C54_progress 2 n ltac:(lia)) as (_ & PD & PB & _). destruct (PB _ _ _ _ HA A) as [Hs _]. destruct (Hs false) as [d Ed].
  pose proof (ad_subset 2 n _ _ _ _ _ HA A (sub_sequential _ _ _ _ Ed)) as HA'.
  destruct (PD _ _ _ HA') as (_ & ([f' Ef] & _) & _). exists f', d. split; [by eapply sub_sequential|by apply red_sequential].
Qed.
Lemma reduce_step nored d d' P : api_dd 2 n AZdd d P -> pd_reduce nored d d' -> api_dd 2 n AZdd d' P.
Proof. unfold pd_reduce. intros HA H. destruct nored; [by subst|by eapply ad_reduce]. Qed.
Lemma reduce_ex nored d P : api_dd 2 n AZdd d P -> exists d', pd_reduce nored d d'.
Proof.
  intros HA. unfold pd_reduce. destruct nored; [by eexists|]. destruct (C54_progress 2 n ltac:(lia)) as (_ & PD & _).
  destruct (PD _ _ _ HA) as (_ & ([f' Ef] & _) & _). exists f'. by apply red_sequential.
Qed.
Section search.
Context (sp : spec) (R : vec -> bool) (HS : api_spec 2 n AZdd sp R).
Lemma build_step b nored f P f' : api_dd 2 n AZdd f P -> pd_build sp b nored f f' ->
  exists P', api_dd 2 n AZdd f' P' /\ forall v, P' v = true <-> R v = true /\ (b = true -> P v = true).
Proof.
  intros HA (d & HC & H). destruct b.
  - destruct H as (d' & HR & Hs). eexists. split; [eapply ad_subset; [eapply reduce_step; [eapply ad_construct; [exact HS|exact HC]|exact HR]|by apply as_diagram|exact Hs]|].
    intros v. cbn beta. rewrite andb_true_iff. naive_solver.
  - subst f'. exists R. split; [by eapply ad_construct|]. naive_solver.
Qed.
Lemma build_ex b nored f P : api_dd 2 n AZdd f P -> exists f', pd_build sp b nored f f'.
Proof.
  intros HA. destruct (C54_progress 2 n ltac:(lia)) as (PS & PD & PB & _). destruct (PS _ _ _ HS) as [[d Ed] _].
  pose proof (ad_construct 2 n _ _ _ _ HS (con_sequential _ _ Ed)) as HD. unfold pd_build.
  destruct b; [|exists d, d; split; [by apply con_sequential|done]]. destruct (reduce_ex nored d R HD) as [d' Hd']. pose proof (reduce_step nored d d' R HD Hd') as HD'.
  destruct (PB _ _ _ _ HD' (as_diagram 2 n _ _ _ HA)) as [Hs _]. destruct (Hs false) as [f' Ef]. exists f', d. split; [by apply con_sequential|]. exists d'. split; [done|by eapply sub_sequential].
Qed.
Lemma subset_ex f P : api_dd 2 n AZdd f P -> exists f', subsetted f sp f'.
Proof.
  intros HA. destruct (C54_progress 2 n ltac:(lia)) as (_ & _ & PB & _). destruct (PB _ _ _ _ HA HS) as [Hs _]. destruct (Hs false) as [f' Ef]. exists f'. by eapply sub_sequential.
Qed.
End search.

Lemma sized_unbounded lb ub v : o_bounded lb ub = false -> sized lb ub v.
Proof. destruct lb, ub; done. Qed.
(** the whole program on a specification that implies the degree constraint *)
Lemma program_api o R f : api_spec 2 n AZdd (pd_spec g o) R -> (forall v, vec_ok 2 v -> R v = true -> deg_good v) -> ddpaths g o f ->
  exists f2 P, api_dd 2 n AZdd f2 P /\ pd_reduce (o_nored o) f2 f /\ forall v, vec_ok 2 v -> P v = true <-> R v = true /\ sized (o_lb o) (o_ub o) v.
Proof.
  intros HS HD (f0 & f1 & f2 & A0 & A1 & A2 & A3). destruct (start_api _ _ A0) as (P0 & B0 & C0). destruct (size_step _ _ _ _ _ B0 A1) as (P1 & B1 & C1).
  exists f2. destruct (o_dc o).
  - eexists. split; [eapply ad_subset; [exact B1|exact HS|exact A2]|]. split; [done|]. intros v Hv. cbn beta. rewrite andb_true_iff, C1, C0. specialize (HD v Hv). naive_solver.
  - destruct (build_step _ _ HS _ _ _ _ _ B1 A2) as (P2 & B2 & C2). exists P2. split; [done|]. split; [done|]. intros v Hv. rewrite C2, C1, C0.
    destruct (o_bounded _ _) eqn:Eb; [naive_solver|]. pose proof (sized_unbounded _ _ v Eb). intuition congruence.
Qed.
Lemma program_ex o R : api_spec 2 n AZdd (pd_spec g o) R -> exists f, ddpaths g o f.
Proof.
  intros HS. destruct (start_ex (o_dc o)) as [f0 A0]. destruct (start_api _ _ A0) as (P0 & B0 & _). destruct (size_ex (o_lb o) (o_ub o) _ _ B0) as [f1 A1].
  destruct (size_step _ _ _ _ _ B0 A1) as (P1 & B1 & _).
  assert (exists f2 P2, (if o_dc o then subsetted f1 (pd_spec g o) f2 else pd_build (pd_spec g o) (o_bounded (o_lb o) (o_ub o)) (o_nored o) f1 f2) /\ api_dd 2 n AZdd f2 P2) as (f2 & P2 & A2 & B2).
  { destruct (o_dc o).
    - destruct (subset_ex _ _ HS _ _ B1) as [f2 A2]. eexists f2, _. split; [done|]. by eapply ad_subset.
    - destruct (build_ex _ _ HS (o_bounded (o_lb o) (o_ub o)) (o_nored o) _ _ B1) as [f2 A2]. destruct (build_step _ _ HS _ _ _ _ _ B1 A2) as (P2 & B2 & _). by exists f2, P2. }
  destruct (reduce_ex (o_nored o) f2 P2 B2) as [f A3]. exists f, f0, f1, f2. done.
Qed.
Lemma components_api forest uec lb ub nored R f : api_spec 2 n AZdd (fb_spec (Fbs g uec forest true)) R -> ddcomponents g forest uec lb ub nored f ->
  exists f2 P, api_dd 2 n AZdd f2 P /\ pd_reduce nored f2 f /\ forall v, vec_ok 2 v -> P v = true <-> R v = true /\ sized lb ub v.
Proof.
  intros HS (f0 & f1 & f2 & A0 & A1 & A2 & A3). destruct (start_api _ _ A0) as (P0 & B0 & C0). destruct (size_step _ _ _ _ _ B0 A1) as (P1 & B1 & C1).
  exists f2. destruct (build_step _ _ HS _ _ _ _ _ B1 A2) as (P2 & B2 & C2). exists P2. split; [done|]. split; [done|]. intros v Hv. rewrite C2, C1, C0.
  destruct (o_bounded _ _) eqn:Eb; [naive_solver|]. pose proof (sized_unbounded _ _ v Eb). naive_solver.
Qed.
Lemma components_ex forest uec lb ub nored R : api_spec 2 n AZdd (fb_spec (Fbs g uec forest true)) R -> exists f, ddcomponents g forest uec lb ub nored f.
Proof.
  intros HS. destruct (start_ex false) as [f0 A0]. destruct (start_api _ _ A0) as (P0 & B0 & _). destruct (size_ex lb ub _ _ B0) as [f1 A1].
  destruct (size_step _ _ _ _ _ B0 A1) as (P1 & B1 & _).
  destruct (build_ex _ _ HS (o_bounded lb ub) nored _ _ B1) as [f2 A2]. destruct (build_step _ _ HS _ _ _ _ _ B1 A2) as (P2 & B2 & _).
  destruct (reduce_ex nored f2 P2 B2) as [f A3]. exists f, f0, f1, f2. done.
Qed.
End graph.
