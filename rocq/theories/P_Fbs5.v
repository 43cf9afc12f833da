(** FrontierBasedSearch: the checks and the steps of the search against the components. *)
From stdpp Require Import strings gmap.
From Verif Require Import Base Sem P_Size M_Graph S_Graph P_Front Props_Graph M_Degree S_Degree P_Degree M_Fbs S_Simpath S_Fbs P_Fbs1 P_Fbs2 P_Fbs3 P_Fbs4.
Local Open Scope Z_scope.

Lemma lt_dec_ex (P : nat -> Prop) `{!forall y, Decision (P y)} a b : {exists y, (a < y <= b)%nat /\ P y} + {~ exists y, (a < y <= b)%nat /\ P y}.
Proof.
  destruct (decide (Exists P (seq (S a) (b - a)))) as [HX|HX]; [left|right].
  - apply Exists_exists in HX as (y & Hy & HP). apply elem_of_seq in Hy. exists y. split; [lia|done].
  - intros (y & Hy & HP). apply HX, Exists_exists. exists y. split; [apply elem_of_seq; lia|done].
Qed.

Section search.
Context (G : fbs).
Let g := fb_graph G.
Let es := g_edgeInfo g.
Let m := vertexSize g.
Let n := length es.
Let W := fb_size G.
Let col := colorNumber g.
Let N := fb_numUEC G.
Context (HN : numbering_ok m es) (HL : loop_free g) (Hm : Z.of_nat m <= 32766).
Context (Hout : forall x, col x <> 0%nat -> (1 <= x <= m)%nat) (HNr : -32768 <= N <= 32767) (Hn0 : (0 < n)%nat).
Notation V0 := (V0 m es).
Notation Log := (Log G).
Notation good := (good G).

Lemma W_bound : Z.of_nat W <= 32767.
Proof.
  destruct (proj2 (C36_frontier_size g) Hn0) as (a & e & He & Ew). pose proof (no_range _ _ HN _ _ He). change (maxFrontierSize g) with W in Ew. lia.
Qed.
Lemma V0_le a b : (a <= b <= n)%nat -> (V0 a <= V0 b)%nat.
Proof.
  intros [H1 H2]. induction H1 as [|b H IH]; [lia|]. pose proof (V0_mono m es HN b ltac:(fold n; lia)). etrans; [apply IH; lia|done].
Qed.
Lemma edge_ends i e : es !! i = Some e -> (V0 i <= e_v1 e)%nat /\ (e_v1 e < e_v2 e)%nat /\ (e_v2 e <= m)%nat /\ (e_v2 e < V0 i + W)%nat /\ (1 <= V0 i)%nat.
Proof.
  intros He. destruct (no_range _ _ HN _ _ He) as (R1 & R2 & R3 & R4). pose proof (HL _ _ He). rewrite (V0_at m es i e He).
  pose proof (max_frontier g i e He) as HM. change (maxFrontierSize g) with W in HM. lia.
Qed.
Lemma Log_lab ch i j u f cx ex : Log ch j (V0 i) u f cx ex -> (j <= S i)%nat -> (i <= n)%nat -> (1 <= W)%nat -> Lab m (V0 i) W f cx ex.
Proof.
  intros HI Hj Hi HW1. constructor.
  - intros x y Ef Hne. apply (lg_f _ _ _ _ _ _ _ _ HI), C_in in Ef as [?|[z Hz]]; [done|]. apply (E_in G HL) in Hz as (a & e & Ha & He & Hx & _). fold g es in He.
    destruct (edge_ends a e He) as (R1 & R2 & R3 & R4 & R5). pose proof (V0_le a i ltac:(lia)). lia.
  - apply (lg_cf _ _ _ _ _ _ _ _ HI).
  - intros x y Ef. apply eq_iff_eq_true. rewrite !(lg_e _ _ _ _ _ _ _ _ HI). assert (HC : C G ch j x y) by (by apply (lg_f _ _ _ _ _ _ _ _ HI)).
    split; intros Hz; [apply C_sym, C_in in HC as [->|?]|apply C_in in HC as [->|?]]; done.
Qed.
Lemma W_pos : (1 <= W)%nat.
Proof. destruct (lookup_lt_is_Some_2 es 0 Hn0) as [e He]. destruct (edge_ends 0 e He). lia. Qed.

(** which vertices leave after edge i *)
Lemma dcase i e : es !! i = Some e ->
  (V0 (S i) = V0 i /\ e_v1final e = false /\ e_v2final e = false) \/
  (V0 (S i) = S (V0 i) /\ e_v1 e = V0 i /\ e_v1final e = true /\ e_v2final e = false) \/
  (V0 (S i) = S (S (V0 i)) /\ e_v1 e = V0 i /\ e_v2 e = S (V0 i) /\ e_v1final e = true /\ e_v2final e = true).
Proof.
  intros He. destruct (edge_ends i e He) as (R1 & R2 & R3 & R4 & R5). pose proof (lookup_lt_Some _ _ _ He) as Hlt.
  pose proof (V0_mono m es HN i Hlt) as Hmono.
  assert (Hend : (V0 (S i) <= S m)%nat). { rewrite <- (V0_end m es). apply V0_le. unfold n. lia. }
  pose proof (fun x => front_fin m es HN i e x He) as HF.
  assert (F1 : (e_v1 e < V0 (S i))%nat <-> e_v1final e = true). { rewrite (HF (e_v1 e)) by lia. split; [intros [[_ ?]|[? _]]; [done|lia]|intros; left; done]. }
  assert (F2 : (e_v2 e < V0 (S i))%nat <-> e_v2final e = true). { rewrite (HF (e_v2 e)) by lia. split; [intros [[? _]|[_ ?]]; [lia|done]|intros; right; done]. }
  assert (H0 : (V0 i < V0 (S i))%nat -> e_v1 e = V0 i). { intros H. apply HF in H; [|lia]. destruct H as [[? _]|[? _]]; lia. }
  assert (H1 : (S (V0 i) < V0 (S i))%nat -> e_v1 e = V0 i /\ e_v2 e = S (V0 i)). { intros H. pose proof (H0 ltac:(lia)) as E0. split; [done|]. apply HF in H; [|lia]. rewrite E0 in H. destruct H as [[? _]|[? _]]; lia. }
  assert (H2 : ~ (S (S (V0 i)) < V0 (S i))%nat). { intros H. pose proof (H1 ltac:(lia)) as [E1 E2]. apply HF in H; [|lia]. rewrite E1, E2 in H. destruct H as [[? _]|[? _]]; lia. }
  destruct (e_v1final e), (e_v2final e); try (pose proof (proj2 F1 eq_refl)); try (pose proof (proj2 F2 eq_refl));
    try (assert (~ (e_v1 e < V0 (S i))%nat) by (intros ?%F1; done)); try (assert (~ (e_v2 e < V0 (S i))%nat) by (intros ?%F2; done)).
  - right. right. pose proof (H0 ltac:(lia)). destruct (decide (S (V0 i) < V0 (S i))%nat) as [Hd|Hd]; [|lia]. pose proof (H1 Hd). split_and!; [lia|lia|lia|done|done].
  - right. left. pose proof (H0 ltac:(lia)). split_and!; [|done|done|done]. destruct (decide (S (V0 i) < V0 (S i))%nat) as [Hd|Hd]; [|lia]. pose proof (H1 Hd). lia.
  - lia.
  - left. split_and!; [|done|done]. destruct (decide (V0 i < V0 (S i))%nat) as [Hd|Hd]; [|lia]. pose proof (H0 Hd). lia.
Qed.

(** the counter after d vertices have left *)
Fixpoint leaves (f cx : nat -> nat) (ex : nat -> bool) (B d : nat) (u : Z) (r : option Z) : Prop :=
  match d with
  | O => r = Some u
  | S d => exists r1, leave1 G f cx ex B u r1 /\ match r1 with None => r = None | Some u1 => leaves f cx ex (S B) d u1 r end
  end.
Lemma leaves_log ch i f cx ex : (i <= n)%nat -> (forall x b, (1 <= x < V0 i)%nat -> (i <= b)%nat -> ~ incident es b x) ->
  forall d B u r, Log ch i B u f cx ex -> (1 <= B)%nat -> (B + d <= S m)%nat -> (B + d = V0 i)%nat -> leaves f cx ex B d u r ->
  match r with Some u' => Log ch i (B + d) u' f cx ex | None => ~ good ch end.
Proof.
  intros Hi Hl. induction d as [|d IH]; intros B u r HI HB HBm HBd Hr; cbn [leaves] in Hr.
  - subst r. by rewrite Nat.add_0_r.
  - destruct Hr as ([u1|] & H1 & Hr).
    + pose proof (leave1_some G HN HL Hm Hout ch i B u f cx ex HI ltac:(fold g m; lia) Hi ltac:(intros x b Hx; apply Hl; lia) u1 H1) as HI1.
      specialize (IH (S B) u1 r HI1 ltac:(lia) ltac:(lia) ltac:(lia) Hr). by replace (B + S d)%nat with (S B + d)%nat by lia.
    + subst r. eapply (leave1_none G HN HL Hout ch i B u f cx ex HI); [fold g m; lia|exact Hi| |exact H1]. intros x b Hx. apply Hl. lia.
Qed.

(** ** the state of the search *)
Record SInv (ch : nat -> bool) (i : nat) (u : Z) (f cx : nat -> nat) (ex : nat -> bool) (M : nat -> fcell) (ms : cells) : Prop := {
  si_log : Log ch i (V0 i) u f cx ex;
  si_rep : Rep m (V0 i) f cx ex M;
  si_arr : farr (V0 i) W M ms;
  si_init : forall x, (V0 i + W <= x)%nat -> M x = fb_init_at G x
}.
Definition fin (e : edge_info) (r : option Z) : option Z :=
  match r with None => None | Some u => if e_finalEdge e && (0 <? u) then None else Some u end.

Section step.
Context (ch : nat -> bool) (i : nat) (u : Z) (f cx : nat -> nat) (ex : nat -> bool) (M : nat -> fcell) (ms : cells) (e : edge_info).
Context (HS : SInv ch i u f cx ex M ms) (He : es !! i = Some e).
Let v0 := V0 i.
Let v1 := e_v1 e.
Let v2 := e_v2 e.
Let Hlog := si_log _ _ _ _ _ _ _ _ HS.
Let Hrep := si_rep _ _ _ _ _ _ _ _ HS.
Let Harr := si_arr _ _ _ _ _ _ _ _ HS.
Let Hends := edge_ends i e He.
Let Hlab : Lab m v0 W f cx ex.
Proof. eapply Log_lab; [exact Hlog|lia|pose proof (lookup_lt_Some _ _ _ He); unfold n; lia|apply W_pos]. Qed.
Let Hv0 : (1 <= v0)%nat.
Proof. unfold v0. lia. Qed.
Let Hr1 : (v0 <= v1 < v0 + W)%nat /\ (v0 <= v1 <= m)%nat.
Proof. unfold v0, v1. lia. Qed.
Let Hr2 : (v0 <= v2 < v0 + W)%nat /\ (v0 <= v2 <= m)%nat.
Proof. unfold v0, v2. lia. Qed.
Let H12 : (v1 < v2)%nat.
Proof. unfold v1, v2. lia. Qed.
Lemma ptr v : fptr e v = Z.of_nat v - Z.of_nat v0.
Proof. unfold fptr, v0. by rewrite (V0_at m es i e He). Qed.
Let Hget1 : fget ms (fptr e v1) = Some (M v1).
Proof. rewrite ptr. apply (farr_get v0 W M ms v1 Harr). lia. Qed.
Let Hget2 : fget ms (fptr e v2) = Some (M v2).
Proof. rewrite ptr. apply (farr_get v0 W M ms v2 Harr). lia. Qed.

Lemma fin_in x y : f x = f y -> x <> y -> (x <= m)%nat.
Proof. intros H1 H2. by destruct (lb_in _ _ _ _ _ _ Hlab x y H1 H2). Qed.
Lemma stays_dec x : {stays G f x} + {~ stays G f x}.
Proof. apply (lt_dec_ex (fun y => f y = f x)). Qed.
Lemma iso_iff x : (v0 <= x <= m)%nat -> isIsolated (M x) = true <-> (~ stays G f x /\ forall y, (v0 <= y < x)%nat -> f y <> f x).
Proof.
  intros Hx. rewrite (rd_isolated m v0 W Hm Hv0 f cx ex M Hrep x Hx). split.
  - intros H. split.
    + intros (y & Hy & Ey). specialize (H y ltac:(lia) Ey). lia.
    + intros y Hy Ey. specialize (H y ltac:(lia) Ey). lia.
  - intros [H1 H2] y Hy Ey. destruct (lt_eq_lt_dec y x) as [[?|?]|Hlt]; [|done|].
    + destruct (H2 y); [lia|done].
    + destruct H1. exists y. split; [|done]. pose proof (fin_in y x Ey ltac:(lia)). change (vertexSize (fb_graph G)) with m. lia.
Qed.
(** w1 is the head, w2 the next one and the last one *)
Lemma pair_iff : v1 = v0 -> v2 = S v0 -> isHead (M v1) && (fptr e v2 =? fptr e v1 + nxt (M v1)) && isTail (M v2) = true <-> (f v1 = f v2 /\ ~ stays G f v2).
Proof.
  intros E1 E2. rewrite !andb_true_iff. rewrite (rd_isHead m v0 W Hm Hv0 f cx ex M Hrep v1) by lia. rewrite (rd_isTail m v0 W Hv0 f cx ex M Hrep v2) by lia.
  rewrite !ptr, Z.eqb_eq. pose proof (rd_nxt m v0 f cx ex M Hrep v1 ltac:(lia)) as Hn. split.
  - intros [[_ Hw] Ht]. split.
    + destruct Hn as [[En _]|(y & Hy & Ey & _ & En)]; [lia|]. assert (y = v2) as -> by lia. done.
    + intros (y & Hy & Ey). apply (Ht y); [lia|done].
  - intros [Ef Hst]. split_and!.
    + split_and!; [lia|lia|done|]. intros z Hz. lia.
    + destruct Hn as [[En Hno]|(y & Hy & Ey & Hno & En)]; [by destruct (Hno v2 H12)|]. destruct (decide (y = v2)) as [->|]; [lia|]. destruct (Hno v2); [lia|done].
    + intros y Hy Ey. apply Hst. exists y. split; [|done]. pose proof (fin_in y v2 Ey ltac:(lia)). change (vertexSize (fb_graph G)) with m. lia.
Qed.
Lemma tail_hangs x : (v0 <= x <= m)%nat -> (v0 <= x < v0 + W)%nat -> cx x <> 0%nat ->
  exists b, isColoredTail ms (fptr e x) = Some b /\ (b = true <-> ~ hangs G cx x) /\ (b = false <-> hangs G cx x).
Proof.
  intros Hx Hr Hc. rewrite ptr. destruct (rd_tail m v0 W Hm Hv0 f cx ex M ms Hlab Hrep Harr x Hx Hr) as (b & Eb & Hb). exists b. split; [done|].
  assert (istgt m v0 cx (cx x) x <-> ~ hangs G cx x) as HT.
  { split.
    - intros (_ & _ & H) (y & Hy & Ey). by apply (H y).
    - intros H. split_and!; [lia|lia|done|]. intros z Hz Ez. apply H. by exists z. }
  destruct (lt_dec_ex (fun y => cx y = cx x) x m) as [Hh|Hh]; change (hangs G cx x) in Hh || change (~ hangs G cx x) in Hh.
  - assert (b = false) as ->; [|split; split; done]. destruct b; [|done]. destruct (proj1 Hb eq_refl) as [_ T]. by apply HT in T.
  - assert (b = true) as ->; [apply Hb; split; [done|by apply HT]|]. split; split; done.
Qed.
Lemma pred_none o this : (o - this <= 0)%Z -> isColoredTail ms o = Some true -> findColorPredecessor ms this o = Some None.
Proof. intros H E. unfold findColorPredecessor. rewrite E. cbn [mbind option_bind negb]. by replace (Z.to_nat (o - this)) with 0%nat by lia. Qed.

Lemma alone_ok x second : (v0 <= x <= m)%nat -> (v0 <= x < v0 + W)%nat -> (second = true -> x = S v0) -> ~ stays G f x -> forall w,
  exists r, leave_alone ms w (fptr e x) second = Some r /\ leave1 G f cx ex x w r.
Proof.
  intros Hx Hr Hsec Hst w. unfold leave_alone. rewrite ptr, (rd_colored m v0 W Hm Hv0 f cx ex M ms Hlab Hrep Harr x Hx Hr), <- ptr. cbn [mbind option_bind].
  destruct (decide (cx x = 0%nat)) as [Hc|Hc].
  - rewrite bool_decide_false by (intros ?; done). rewrite ptr, (rd_edge m v0 W Hm Hv0 f cx ex M ms Hlab Hrep Harr x Hx Hr Hc). cbn [mbind option_bind].
    destruct (ex x) eqn:Hex.
    + rewrite andb_true_r. destruct (Z.leb_spec 0 w).
      * destruct (Z.eqb_spec w 0); eexists; (split; [reflexivity|]); unfold leave1; [do 4 right; left; done|]. do 5 right. split_and!; try done. by rewrite (proj2 (Z.ltb_lt _ _)) by lia.
      * eexists. split; [reflexivity|]. do 5 right. split_and!; try done; [lia|]. by rewrite (proj2 (Z.ltb_ge _ _)) by lia.
    + rewrite andb_false_r. eexists. split; [reflexivity|]. do 3 right. left. done.
  - rewrite bool_decide_true by done. destruct (tail_hangs x Hx Hr Hc) as (b & Eb & Hb1 & Hb2). rewrite Eb. cbn [mbind option_bind]. destruct b; cbn [negb].
    + assert (leave1 G f cx ex x w (Some w)) as Hl. { do 2 right. left. split_and!; try done. by apply Hb1. }
      destruct second; [|by eexists]. rewrite pred_none; [|rewrite ptr, (Hsec eq_refl); lia|done]. cbn [mbind option_bind]. by eexists.
    + eexists. split; [reflexivity|]. right. left. split_and!; try done. by apply Hb2.
Qed.

(** doNotTake *)
Lemma skip_code : exists r, leaves f cx ex v0 (V0 (S i) - v0) u r /\ fb_doNotTake G u ms e = Some (fin e r).
Proof.
  unfold fb_doNotTake. change (e_v1 e) with v1. change (e_v2 e) with v2. cbv zeta. rewrite Hget1, Hget2. cbn [mbind option_bind].
  destruct (dcase i e He) as [(Ed & -> & ->)|[(Ed & E1 & -> & ->)|(Ed & E1 & E2 & -> & ->)]]; fold v0 in Ed; cbn [andb].
  - replace (V0 (S i) - v0)%nat with 0%nat by lia. exists (Some u). split; [done|]. cbn [mbind option_bind fin]. by destruct (e_finalEdge e && _).
  - fold v0 v1 in E1. replace (V0 (S i) - v0)%nat with 1%nat by lia. cbn [leaves].
    destruct (stays_dec v1) as [Hst|Hst].
    + assert (isIsolated (M v1) = false) as ->. { apply not_true_is_false. intros H. apply iso_iff in H as [H _]; [done|lia]. }
      cbn [mbind option_bind]. exists (Some u). split; [|cbn [fin]; by destruct (e_finalEdge e && _)]. exists (Some u). rewrite <- E1. split; [by left|done].
    + assert (isIsolated (M v1) = true) as ->. { apply iso_iff; [lia|]. split; [done|]. intros y Hy. lia. }
      destruct (alone_ok v1 false ltac:(lia) ltac:(lia) ltac:(done) Hst u) as (r & Er & Hr). rewrite Er. cbn [mbind option_bind].
      exists r. split; [exists r; rewrite <- E1; split; [done|]; by destruct r|]. destruct r as [w|]; [|done]. cbn [mbind option_bind fin]. by destruct (e_finalEdge e && _).
  - fold v0 v1 in E1. fold v0 v2 in E2. replace (V0 (S i) - v0)%nat with 2%nat by lia. cbn [leaves].
    assert (Hiso1 : isIsolated (M v1) = true <-> ~ stays G f v1). { rewrite iso_iff by lia. split; [intros [? _]; done|]. intros H. split; [done|]. intros y Hy. lia. }
    assert (Hiso2 : isIsolated (M v2) = true <-> ~ stays G f v2 /\ f v1 <> f v2).
    { rewrite iso_iff by lia. split; intros [H1 H2]; (split; [done|]); [apply H2; lia|]. intros y Hy. by replace y with v1 by lia. }
    (* the first vertex *)
    assert (exists r1, (if isIsolated (M v1) then leave_alone ms u (fptr e v1) false else Some (Some u)) = Some r1 /\ leave1 G f cx ex v0 u r1) as (r1 & -> & Hl1).
    { destruct (stays_dec v1) as [Hst|Hst].
      - assert (isIsolated (M v1) = false) as -> by (apply not_true_is_false; intros H; by apply Hiso1 in H). exists (Some u). split; [done|]. rewrite <- E1. by left.
      - rewrite (proj2 Hiso1 Hst). destruct (alone_ok v1 false ltac:(lia) ltac:(lia) ltac:(done) Hst u) as (r & -> & Hr). exists r. rewrite <- E1. done. }
    cbn [mbind option_bind]. destruct r1 as [u1|]; [|exists None; split; [by exists None|done]].
    assert (Hfin : forall r, leave1 G f cx ex v2 u1 r -> exists r0, (exists r2, leave1 G f cx ex v0 u r2 /\ match r2 with Some u1 => exists r3, leave1 G f cx ex (S v0) u1 r3 /\ match r3 with Some u2 => r0 = Some u2 | None => r0 = None end | None => r0 = None end) /\ r0 = r).
    { intros r Hr. exists r. split; [|done]. exists (Some u1). split; [done|]. rewrite <- E2. exists r. split; [done|]. by destruct r. }
    destruct (stays_dec v2) as [Hst|Hst].
    + assert (isIsolated (M v2) = false) as -> by (apply not_true_is_false; intros H; by apply Hiso2 in H as [? _]). cbn [mbind option_bind].
      assert (isHead (M v1) && (fptr e v2 =? fptr e v1 + nxt (M v1)) && isTail (M v2) = false) as ->.
      { apply not_true_is_false. intros H. by apply (pair_iff E1 E2) in H as [_ H]. }
      cbn [mbind option_bind]. destruct (Hfin (Some u1)) as (r0 & Hr0 & ->); [by left|]. exists (Some u1). split; [done|]. cbn [fin]. by destruct (e_finalEdge e && _).
    + destruct (decide (f v1 = f v2)) as [Ef|Ef].
      * assert (isIsolated (M v2) = false) as -> by (apply not_true_is_false; intros H; by apply Hiso2 in H as [_ ?]). cbn [mbind option_bind].
        rewrite (proj2 (pair_iff E1 E2) (conj Ef Hst)).
        rewrite !ptr, (rd_colored m v0 W Hm Hv0 f cx ex M ms Hlab Hrep Harr v1 ltac:(lia) ltac:(lia)), <- ?ptr. cbn [mbind option_bind].
        pose proof (lb_c _ _ _ _ _ _ Hlab _ _ Ef) as Ec. destruct (decide (cx v1 = 0%nat)) as [Hc|Hc].
        -- rewrite bool_decide_false by (intros ?; done). rewrite !ptr, (rd_edge m v0 W Hm Hv0 f cx ex M ms Hlab Hrep Harr v1 ltac:(lia) ltac:(lia) Hc), <- ?ptr. cbn [mbind option_bind].
           assert (Hex : ex v2 = true). { apply (lg_e _ _ _ _ _ _ _ _ Hlog). symmetry in Ef. apply (lg_f _ _ _ _ _ _ _ _ Hlog), C_in in Ef as [?|?]; [lia|done]. }
           rewrite (lb_e _ _ _ _ _ _ Hlab _ _ Ef), Hex. cbn [negb].
           destruct (Z.eqb_spec u1 0) as [->|Hu].
           ++ cbn [mbind option_bind]. destruct (Hfin None) as (r0 & Hr0 & ->); [do 4 right; left; split_and!; try done; congruence|]. exists None. done.
           ++ cbn [mbind option_bind]. destruct (Hfin (Some (if 0 <? u1 then u1 - 1 else u1))) as (r0 & Hr0 & ->); [do 5 right; split_and!; try done; congruence|].
              eexists. split; [exact Hr0|]. cbn [fin]. by destruct (e_finalEdge e && _).
        -- rewrite bool_decide_true by done. destruct (tail_hangs v2 ltac:(lia) ltac:(lia) ltac:(congruence)) as (b & Eb & Hb1 & Hb2). rewrite Eb. cbn [mbind option_bind].
           destruct b; cbn [negb].
           ++ assert (fptr e v2 = 1) as Ep by (rewrite ptr; lia).
              rewrite (pred_none 1 (fptr e v2)); [|lia|by rewrite <- Ep]. cbn [mbind option_bind].
              destruct (Hfin (Some u1)) as (r0 & Hr0 & ->); [do 2 right; left; split_and!; try done; [congruence|by apply Hb1]|].
              eexists. split; [exact Hr0|]. cbn [fin]. by destruct (e_finalEdge e && _).
           ++ cbn [mbind option_bind]. destruct (Hfin None) as (r0 & Hr0 & ->); [right; left; split_and!; try done; [congruence|by apply Hb2]|]. by exists None.
      * rewrite (proj2 Hiso2 (conj Hst Ef)). destruct (alone_ok v2 true ltac:(lia) ltac:(lia) ltac:(done) Hst u1) as (r & Er & Hr). rewrite Er. cbn [mbind option_bind].
        destruct (Hfin r Hr) as (r0 & Hr0 & ->). exists r. split; [done|]. destruct r as [w|]; [|done].
        assert (isHead (M v1) && (fptr e v2 =? fptr e v1 + nxt (M v1)) && isTail (M v2) = false) as ->.
        { apply not_true_is_false. intros H. by apply (pair_iff E1 E2) in H as [? _]. }
        cbn [mbind option_bind fin]. by destruct (e_finalEdge e && _).
Qed.

(** takable *)
Let f' := mf f v1 v2.
Let cx' := mcx f cx v1 v2.
Let ex' := mex f ex v1 v2.
Lemma take_code_no : ~ take_ok G f cx e -> fb_takable G u ms e = Some None.
Proof.
  intros Hno. unfold fb_takable. change (e_v1 e) with v1. change (e_v2 e) with v2. cbv zeta. rewrite Hget1, Hget2. cbn [mbind option_bind].
  rewrite !ptr. destruct (rd_head m v0 W Hm Hv0 f cx ex M ms Hrep Harr v1 ltac:(lia) ltac:(lia)) as (h1 & Hh1 & ->).
  destruct (rd_head m v0 W Hm Hv0 f cx ex M ms Hrep Harr v2 ltac:(lia) ltac:(lia)) as (h2 & Hh2 & ->). cbn [mbind option_bind].
  assert (Heq : h1 = h2 <-> f v1 = f v2).
  { split; [intros ->; destruct Hh1 as (_ & E1 & _), Hh2 as (_ & E2 & _); congruence|]. intros Ef. by apply (hd_uniq m v0 W Hv0 f v1 v2 h1 h2 Hh1 Hh2). }
  destruct (fb_noLoop G && _) eqn:Hnl; [done|].
  rewrite !(rd_colored m v0 W Hm Hv0 f cx ex M ms Hlab Hrep Harr) by lia. cbn [mbind option_bind].
  destruct (decide (cx v1 = 0%nat \/ cx v2 = 0%nat \/ cx v1 = cx v2)) as [Hok|Hbad].
  - exfalso. apply Hno. split; [|done]. intros Hloop. fold v1 v2. rewrite Hloop in Hnl. cbn [andb] in Hnl. apply Z.eqb_neq in Hnl. rewrite <- Heq. intros ->. lia.
  - rewrite (rd_same m v0 W Hm Hv0 f cx ex M ms Hlab Hrep Harr v1 v2) by (tauto || (intros ?; apply Hbad; tauto)). cbn [mbind option_bind].
    rewrite !bool_decide_true by (intros ?; apply Hbad; tauto). rewrite bool_decide_false by (intros ?; apply Hbad; tauto). done.
Qed.

Lemma stays'_dec x : {stays G f' x} + {~ stays G f' x}.
Proof. apply (lt_dec_ex (fun y => f' y = f' x)). Qed.
Lemma inU1 : inU f v1 v2 v1. Proof. by left. Qed.
Lemma inU2 : inU f v1 v2 v2. Proof. by right. Qed.
Lemma f'_U x y : inU f v1 v2 x -> inU f v1 v2 y -> f' x = f' y.
Proof. intros H1 H2. apply mf_iff. by right. Qed.
Lemma stays'_iff : stays G f' v2 <-> exists y, (v2 < y <= m)%nat /\ inU f v1 v2 y.
Proof.
  split; intros (y & Hy & H); exists y; (split; [done|]).
  - apply mf_iff in H as [H|[H _]]; [by right|done].
  - apply f'_U; [done|apply inU2].
Qed.
Lemma cx'_U x : inU f v1 v2 x -> cx' x = Nat.max (cx v1) (cx v2).
Proof. intros H. unfold cx', mcx. by rewrite decide_True. Qed.
Lemma cx'_N x : ~ inU f v1 v2 x -> cx' x = cx x.
Proof. intros H. unfold cx', mcx. by rewrite decide_False. Qed.
Lemma hangs'_iff k : ~ stays G f' v2 -> k <> 0%nat -> Nat.max (cx v1) (cx v2) = k -> hangs G cx' v2 <-> exists y, (v2 < y <= m)%nat /\ cx y = k.
Proof.
  intros Hst Hk Ek. unfold hangs. rewrite (cx'_U v2 inU2), Ek. split; intros (y & Hy & Ey); exists y; (split; [done|]).
  - rewrite cx'_N in Ey; [done|]. intros HU. apply Hst, stays'_iff. by exists y.
  - rewrite cx'_N; [done|]. intros HU. apply Hst, stays'_iff. by exists y.
Qed.
Lemma ex'_U x : inU f v1 v2 x -> ex' x = true.
Proof. intros H. unfold ex', mex. by rewrite decide_True. Qed.
Let Hms_Hlab := Hlab.

(** the part of takable for an edge after which both ends leave *)
Lemma take_code : take_ok G f cx e -> exists r, leaves f' cx' ex' v0 (V0 (S i) - v0) u r /\ fb_takable G u ms e = Some (fin e r).
Proof.
  intros [Hloop Hcol]. fold v1 v2 in Hloop, Hcol.
  unfold fb_takable. change (e_v1 e) with v1. change (e_v2 e) with v2. cbv zeta. rewrite Hget1, Hget2. cbn [mbind option_bind].
  rewrite !ptr. destruct (rd_head m v0 W Hm Hv0 f cx ex M ms Hrep Harr v1 ltac:(lia) ltac:(lia)) as (h1 & Hh1 & ->).
  destruct (rd_head m v0 W Hm Hv0 f cx ex M ms Hrep Harr v2 ltac:(lia) ltac:(lia)) as (h2 & Hh2 & ->). cbn [mbind option_bind].
  assert (fb_noLoop G && (Z.of_nat h1 - Z.of_nat v0 =? Z.of_nat h2 - Z.of_nat v0) = false) as ->.
  { destruct (fb_noLoop G); [|done]. cbn [andb]. apply Z.eqb_neq. intros E12. assert (h1 = h2) as -> by lia. apply (Hloop eq_refl).
    destruct Hh1 as (_ & E1 & _), Hh2 as (_ & E2 & _). congruence. }
  rewrite !(rd_colored m v0 W Hm Hv0 f cx ex M ms Hlab Hrep Harr) by lia. cbn [mbind option_bind].
  destruct (rd_same_some m v0 W Hm Hv0 f cx ex M ms Hlab Hrep Harr v1 v2 ltac:(lia) ltac:(lia) ltac:(lia) ltac:(lia)) as (sm & Esm). rewrite Esm. cbn [mbind option_bind].
  assert (bool_decide (cx v1 <> 0%nat) && bool_decide (cx v2 <> 0%nat) && negb sm = false) as ->.
  { destruct (decide (cx v1 = 0%nat)) as [C1|C1]; [by rewrite bool_decide_false by (intros ?; done)|]. destruct (decide (cx v2 = 0%nat)) as [C2|C2]; [rewrite (bool_decide_false (cx v2 <> 0%nat)) by (intros ?; done); by rewrite andb_false_r|].
    rewrite (rd_same m v0 W Hm Hv0 f cx ex M ms Hlab Hrep Harr v1 v2) in Esm by lia. injection Esm as <-. rewrite (bool_decide_true (cx v1 = cx v2)) by lia. by rewrite andb_false_r. }
  destruct (dcase i e He) as [(Ed & -> & ->)|[(Ed & E1 & -> & ->)|(Ed & E1 & E2 & -> & ->)]]; fold v0 in Ed; cbn [andb mbind option_bind].
  - replace (V0 (S i) - v0)%nat with 0%nat by lia. exists (Some u). split; [done|]. cbn [fin]. by destruct (e_finalEdge e && _).
  - fold v0 v1 in E1. replace (V0 (S i) - v0)%nat with 1%nat by lia. cbn [leaves]. exists (Some u). split; [|cbn [fin]; by destruct (e_finalEdge e && _)].
    exists (Some u). split; [|done]. left. split; [|done]. rewrite <- E1. exists v2. split; [change (vertexSize (fb_graph G)) with m; lia|]. apply f'_U; [apply inU2|apply inU1].
  - fold v0 v1 in E1. fold v0 v2 in E2. replace (V0 (S i) - v0)%nat with 2%nat by lia. cbn [leaves].
    assert (Hl1 : leave1 G f' cx' ex' v0 u (Some u)).
    { left. split; [|done]. rewrite <- E1. exists v2. split; [change (vertexSize (fb_graph G)) with m; lia|]. apply f'_U; [apply inU2|apply inU1]. }
    assert (Hiso1 : isIsolated (M v1) = true <-> ~ stays G f v1). { rewrite iso_iff by lia. split; [intros [? _]; done|]. intros H. split; [done|]. intros y Hy. lia. }
    assert (Hiso2 : isIsolated (M v2) = true <-> ~ stays G f v2 /\ f v1 <> f v2).
    { rewrite iso_iff by lia. split; intros [H1 H2]; (split; [done|]); [apply H2; lia|]. intros y Hy. by replace y with v1 by lia. }
    assert (Hfin : forall r, leave1 G f' cx' ex' v2 u r -> exists r2, leave1 G f' cx' ex' v0 u r2 /\ match r2 with Some u1 => exists r3, leave1 G f' cx' ex' (S v0) u1 r3 /\ match r3 with Some u2 => r = Some u2 | None => r = None end | None => r = None end).
    { intros r Hr. exists (Some u). split; [done|]. rewrite <- E2. exists r. split; [done|]. by destruct r. }
    rewrite <- ?ptr.
    assert (Hu0 : ~ stays G f' v2 -> Nat.max (cx v1) (cx v2) = 0%nat -> leave1 G f' cx' ex' v2 u (if u =? 0 then None else Some (if 0 <? u then u - 1 else u))).
    { intros Hst Hc. destruct (Z.eqb_spec u 0).
      - do 4 right. left. split_and!; try done; [rewrite cx'_U; [done|apply inU2]|apply ex'_U, inU2].
      - do 5 right. split_and!; try done; [rewrite cx'_U; [done|apply inU2]|apply ex'_U, inU2]. }
    destruct (stays'_dec v2) as [Hst|Hst].
    + pose proof (proj1 stays'_iff Hst) as (y & Hy & HU).
      assert (isIsolated (M v1) && isIsolated (M v2) = false) as ->.
      { apply not_true_is_false. intros [H1 H2]%andb_true_iff. apply Hiso1 in H1. apply Hiso2 in H2 as [H2 _]. destruct HU as [HU|HU]; [apply H1|apply H2]; exists y; (split; [change (vertexSize (fb_graph G)) with m; lia|done]). }
      assert (isHead (M v1) && (fptr e v2 =? fptr e v1 + nxt (M v1)) && isTail (M v2) = false) as ->.
      { apply not_true_is_false. intros H. apply (pair_iff E1 E2) in H as [Ef H]. apply H. exists y. split; [done|]. destruct HU; congruence. }
      cbn [mbind option_bind]. exists (Some u). split; [|cbn [fin]; by destruct (e_finalEdge e && _)]. apply Hfin. by left.
    + assert (Hs2 : ~ stays G f v2). { intros (y & Hy & Ey). apply Hst, stays'_iff. exists y. split; [done|]. by right. }
      assert (HU1 : forall y, (v2 < y <= m)%nat -> f y <> f v1). { intros y Hy Ey. apply Hst, stays'_iff. exists y. split; [done|]. by left. }
      destruct (decide (f v1 = f v2)) as [Ef|Ef].
      * assert (isIsolated (M v1) && isIsolated (M v2) = false) as ->. { apply not_true_is_false. intros [_ H2]%andb_true_iff. by apply Hiso2 in H2 as [_ H2]. }
        rewrite (proj2 (pair_iff E1 E2) (conj Ef Hs2)). pose proof (lb_c _ _ _ _ _ _ Hlab _ _ Ef) as Ec.
        destruct (decide (cx v1 = 0%nat)) as [Hc|Hc].
        -- rewrite bool_decide_false by (intros ?; done). rewrite !ptr, (rd_edge m v0 W Hm Hv0 f cx ex M ms Hlab Hrep Harr v1 ltac:(lia) ltac:(lia) Hc), <- ?ptr. cbn [mbind option_bind].
           assert (Hex : ex v1 = true). { apply (lg_e _ _ _ _ _ _ _ _ Hlog). apply (lg_f _ _ _ _ _ _ _ _ Hlog), C_in in Ef as [?|?]; [lia|done]. }
           rewrite Hex. cbn [negb]. specialize (Hu0 Hst ltac:(lia)). exists (if u =? 0 then None else Some (if 0 <? u then u - 1 else u)). split; [by apply Hfin|].
           destruct (u =? 0); cbn [mbind option_bind fin]; [done|]. by destruct (e_finalEdge e && _).
        -- rewrite bool_decide_true by done. destruct (tail_hangs v2 ltac:(lia) ltac:(lia) ltac:(congruence)) as (b & Eb & Hb1 & Hb2). rewrite Eb. cbn [mbind option_bind].
           assert (Hh : hangs G cx' v2 <-> hangs G cx v2). { rewrite (hangs'_iff (cx v2)) by (done || lia). done. }
           destruct b; cbn [negb].
           ++ assert (fptr e v2 = 1) as Ep by (rewrite ptr; lia). rewrite (pred_none 1 (fptr e v2)); [|lia|by rewrite <- Ep]. cbn [mbind option_bind].
              exists (Some u). split; [|cbn [fin]; by destruct (e_finalEdge e && _)]. apply Hfin. do 2 right. left. split_and!; try done; [rewrite cx'_U by apply inU2; lia|]. rewrite Hh. by apply Hb1.
           ++ cbn [mbind option_bind]. exists None. split; [|done]. apply Hfin. right. left. split_and!; try done; [rewrite cx'_U by apply inU2; lia|]. rewrite Hh. by apply Hb2.
      * assert (isIsolated (M v1) && isIsolated (M v2) = true) as ->.
        { apply andb_true_iff. split; [apply Hiso1|by apply Hiso2]. intros (y & Hy & Ey). destruct (decide (y = v2)) as [->|]; [done|]. apply (HU1 y); [change (vertexSize (fb_graph G)) with m in Hy; lia|done]. }
        destruct (decide (cx v2 = 0%nat)) as [C2|C2].
        -- rewrite (bool_decide_false (cx v2 <> 0%nat)) by (intros ?; done). destruct (decide (cx v1 = 0%nat)) as [C1|C1].
           ++ rewrite bool_decide_false by (intros ?; done). specialize (Hu0 Hst ltac:(lia)). exists (if u =? 0 then None else Some (if 0 <? u then u - 1 else u)). split; [by apply Hfin|].
              destruct (u =? 0); cbn [mbind option_bind fin]; [done|]. by destruct (e_finalEdge e && _).
           ++ rewrite bool_decide_true by done. destruct (tail_hangs v1 ltac:(lia) ltac:(lia) C1) as (b & Eb & Hb1 & Hb2). rewrite Eb. cbn [mbind option_bind].
              assert (Hh : hangs G cx' v2 <-> hangs G cx v1).
              { rewrite (hangs'_iff (cx v1)) by (done || lia). split; intros (y & Hy & Ey); exists y; (split; [|done]); [change (vertexSize (fb_graph G)) with m; lia|].
                assert (y <> v2) by congruence. change (vertexSize (fb_graph G)) with m in Hy. lia. }
              destruct b; cbn [negb].
              ** cbn [mbind option_bind]. exists (Some u). split; [|cbn [fin]; by destruct (e_finalEdge e && _)]. apply Hfin. do 2 right. left. split_and!; try done; [rewrite cx'_U by apply inU2; lia|]. rewrite Hh. by apply Hb1.
              ** cbn [mbind option_bind]. exists None. split; [|done]. apply Hfin. right. left. split_and!; try done; [rewrite cx'_U by apply inU2; lia|]. rewrite Hh. by apply Hb2.
        -- rewrite (bool_decide_true (cx v2 <> 0%nat)) by done. destruct (tail_hangs v2 ltac:(lia) ltac:(lia) C2) as (b & Eb & Hb1 & Hb2). rewrite Eb. cbn [mbind option_bind].
           assert (Hh : hangs G cx' v2 <-> hangs G cx v2). { rewrite (hangs'_iff (cx v2)) by (done || lia). done. }
           destruct b; cbn [negb].
           ++ rewrite pred_none; [|rewrite ptr; lia|done]. cbn [mbind option_bind].
              exists (Some u). split; [|cbn [fin]; by destruct (e_finalEdge e && _)]. apply Hfin. do 2 right. left. split_and!; try done; [rewrite cx'_U by apply inU2; lia|]. rewrite Hh. by apply Hb1.
           ++ cbn [mbind option_bind]. exists None. split; [|done]. apply Hfin. right. left. split_and!; try done; [rewrite cx'_U by apply inU2; lia|]. rewrite Hh. by apply Hb2.
Qed.

(** the merged array *)
Lemma merge_code : take_ok G f cx e -> exists ms' M', mergeLists ms (fptr e v1) (fptr e v2) = Some ms' /\ farr v0 W M' ms' /\ Rep m v0 f' cx' ex' M' /\
  forall x, (v0 + W <= x)%nat -> M' x = fb_init_at G x.
Proof.
  intros [_ Hcol]. fold v1 v2 in Hcol. destruct (decide (f v1 = f v2)) as [Ef|Ef].
  - exists ms, M. split_and!.
    + unfold mergeLists. rewrite !ptr. destruct (rd_head m v0 W Hm Hv0 f cx ex M ms Hrep Harr v1 ltac:(lia) ltac:(lia)) as (h1 & Hh1 & ->).
      destruct (rd_head m v0 W Hm Hv0 f cx ex M ms Hrep Harr v2 ltac:(lia) ltac:(lia)) as (h2 & Hh2 & ->). cbn [mbind option_bind].
      rewrite (hd_uniq m v0 W Hv0 f v1 v2 h1 h2 Hh1 Hh2 Ef), Z.eqb_refl. done.
    + exact Harr.
    + pose proof (lb_c _ _ _ _ _ _ Hlab _ _ Ef) as Ec.
      assert (Hf : forall x y, f' x = f' y <-> f x = f y).
      { intros x y. unfold f'. rewrite mf_iff. split; [|by left]. intros [?|[[H1|H1] [H2|H2]]]; congruence. }
      assert (Hc : forall x, cx' x = cx x).
      { intros x. destruct (decide (inU f v1 v2 x)) as [HU|HU]; [|by apply cx'_N]. rewrite cx'_U by done. destruct HU as [HU|HU]; apply (lb_c _ _ _ _ _ _ Hlab) in HU; lia. }
      assert (Hex : forall x, ex' x = ex x).
      { intros x. destruct (decide (inU f v1 v2 x)) as [HU|HU]; [|unfold ex', mex; by rewrite decide_False]. rewrite ex'_U by done. symmetry. apply (lg_e _ _ _ _ _ _ _ _ Hlog).
        destruct (decide (x = v1)) as [->|].
        - apply (lg_f _ _ _ _ _ _ _ _ Hlog), C_in in Ef as [?|?]; [lia|done].
        - assert (f x = f v1) as Ex by (destruct HU; congruence). apply (lg_f _ _ _ _ _ _ _ _ Hlog), C_in in Ex as [?|?]; done. }
      intros x Hx. destruct (Hrep x Hx) as (Hn & h & (K1 & K2 & K3) & Hh). split.
      * eapply isnext_iff; [|exact Hn]. intros y _. by rewrite Hf.
      * exists h. split; [split_and!; [lia|lia|by apply Hf|intros z Hz Ez; apply (K3 z Hz); by apply Hf]|]. destruct Hh as [[-> Hv]|?]; [left; split; [done|]|by right].
        unfold hval in *. rewrite Hc, Hex. destruct Hv as [(C1 & t & T & Ht)|?]; [left|by right]. split; [done|]. exists t. split; [|done].
        destruct T as (T1 & T2 & T3). split_and!; [lia|lia|by rewrite Hc|]. intros z Hz. rewrite Hc. by apply T3.
    + exact (si_init _ _ _ _ _ _ _ _ HS).
  - rewrite !ptr. destruct (merge_ok m v0 W Hm W_bound Hv0 f cx ex M ms v1 v2 f' cx' ex' Hlab Hrep Harr) as (ms' & M' & H1 & H2 & H3 & H4); try tauto.
    + intros x y. unfold f'. rewrite mf_iff. done.
    + intros x HU. by apply cx'_U.
    + intros x HU. by apply cx'_N.
    + intros x HU. by apply ex'_U.
    + intros x HU. unfold ex', mex. by rewrite decide_False.
    + exists ms', M'. split_and!; [done|done|done|]. intros x Hx. rewrite H4 by done. by apply (si_init _ _ _ _ _ _ _ _ HS).
Qed.
End step.

Lemma left_after i : forall x b, (1 <= x < V0 i)%nat -> (i <= b)%nat -> ~ incident es b x.
Proof. intros x b Hx Hb. apply (front_left m es HN i x b); [lia|lia|done]. Qed.
Lemma Vd i e : es !! i = Some e -> (V0 i + (V0 (S i) - V0 i) = V0 (S i))%nat /\ (V0 i + (V0 (S i) - V0 i) <= S m)%nat.
Proof.
  intros He. pose proof (lookup_lt_Some _ _ _ He) as Hlt. pose proof (V0_mono m es HN i Hlt). pose proof (V0_le (S i) n ltac:(unfold n; lia)) as H2. unfold n in H2. rewrite V0_end in H2. lia.
Qed.
Lemma fin_log ch i e u f cx ex r : es !! i = Some e -> Log ch (S i) (V0 i) u f cx ex -> leaves f cx ex (V0 i) (V0 (S i) - V0 i) u r ->
  match fin e r with
  | None => ~ good ch
  | Some u' => Log ch (S i) (V0 (S i)) u' f cx ex /\ (S i = n -> good ch)
  end.
Proof.
  intros He HI Hr. destruct (Vd i e He) as [E1 E2]. destruct (edge_ends i e He) as (R1 & R2 & R3 & R4 & R5). pose proof (lookup_lt_Some _ _ _ He) as Hlt.
  pose proof (leaves_log ch (S i) f cx ex ltac:(unfold n; lia) (left_after (S i)) _ _ _ _ HI R5 E2 E1 Hr) as Hl.
  pose proof (no_finalEdge _ _ HN _ _ He) as HF. destruct r as [u'|]; [|done]. cbn [fin]. rewrite E1 in Hl.
  assert (Hend : S i = n -> good ch <-> u' <= 0).
  { intros En. unfold n in En. rewrite En in Hl. rewrite (V0_end m es) in Hl. by apply (Log_end G HN HL Hout ch u' f cx ex). }
  destruct (e_finalEdge e) eqn:EF; cbn [andb].
  - pose proof (proj1 HF eq_refl) as En. specialize (Hend En). destruct (Z.ltb_spec 0 u'); [rewrite Hend; lia|]. split; [done|]. intros _. apply Hend. lia.
  - split; [done|]. intros En. apply HF in En. done.
Qed.

(** what a decision leads to: rejection, acceptance at the end, or the invariant at the next edge *)
Definition next (ch : nat -> bool) (i : nat) (r : option (Z * cells)) : Prop :=
  match r with
  | None => ~ good ch
  | Some (u, ms) => if (S i =? n)%nat then good ch else
      forall e e', es !! i = Some e -> es !! S i = Some e' -> exists ms' f cx ex M, fb_update G ms e e' = Some ms' /\ SInv ch (S i) u f cx ex M ms'
  end.
Lemma update_code ch i u f cx ex M ms e e' : es !! i = Some e -> es !! S i = Some e' -> Log ch (S i) (V0 i) u f cx ex ->
  forall u', Log ch (S i) (V0 (S i)) u' f cx ex -> Rep m (V0 i) f cx ex M -> farr (V0 i) W M ms -> (forall x, (V0 i + W <= x)%nat -> M x = fb_init_at G x) ->
  exists ms' f cx ex M, fb_update G ms e e' = Some ms' /\ SInv ch (S i) u' f cx ex M ms'.
Proof.
  intros He He' HI u' HI' HR HA HF. destruct (edge_ends i e He) as (R1 & R2 & R3 & R4 & R5). destruct (edge_ends (S i) e' He') as (R1' & R2' & R3' & R4' & R5').
  pose proof (lookup_lt_Some _ _ _ He) as Hlt. pose proof (V0_mono m es HN i Hlt) as Hmono.
  assert (Lab m (V0 i) W f cx ex) as Hlab by (eapply Log_lab; [exact HI|lia|unfold n; lia|apply W_pos]).
  destruct (update_ok m (V0 i) W Hm W_bound R5 G ms M f cx ex e e' (V0 (S i) - V0 i)) as (ms' & M' & H1 & H2 & H3 & H4); try done; try lia.
  - by rewrite (V0_at m es i e He).
  - rewrite <- (V0_at m es (S i) e' He'). lia.
  - destruct (dcase i e He) as [(Ed & F1 & F2)|[(Ed & E1 & F1 & F2)|(Ed & E1 & E2 & F1 & F2)]]; [left|right; left|right; right]; split_and!; try done; lia.
  - replace (V0 i + (V0 (S i) - V0 i))%nat with (V0 (S i)) in * by lia. exists ms', f, cx, ex, M'. split; [done|]. by constructor.
Qed.

Lemma SInv_ext ch ch' i u f cx ex M ms : (forall a, (a < i)%nat -> ch a = ch' a) -> SInv ch i u f cx ex M ms -> SInv ch' i u f cx ex M ms.
Proof. intros H []. constructor; try done. by eapply Log_ext. Qed.

Lemma notTake_ok ch i u f cx ex M ms e : SInv ch i u f cx ex M ms -> es !! i = Some e -> ch i = false ->
  exists r, fb_doNotTake G u ms e = Some r /\ next ch i (match r with None => None | Some u => Some (u, ms) end).
Proof.
  intros HS He Hch. destruct (skip_code ch i u f cx ex M ms e HS He) as (r & Hr & Er). exists (fin e r). split; [done|].
  pose proof (skip_log G ch i (V0 i) u f cx ex e (si_log _ _ _ _ _ _ _ _ HS) He Hch) as HI.
  pose proof (fin_log ch i e u f cx ex r He HI Hr) as Hf. destruct (fin e r) as [u'|]; [|done]. destruct Hf as [HI' Hend]. unfold next.
  destruct (Nat.eqb_spec (S i) n) as [En|En]; [by apply Hend|]. intros e0 e' He0 He'. assert (e0 = e) as -> by congruence.
  eapply update_code; [exact He|exact He'|exact HI|exact HI'|exact (si_rep _ _ _ _ _ _ _ _ HS)|exact (si_arr _ _ _ _ _ _ _ _ HS)|exact (si_init _ _ _ _ _ _ _ _ HS)].
Qed.
Lemma take_step ch i u f cx ex M ms e : SInv ch i u f cx ex M ms -> es !! i = Some e -> ch i = true ->
  exists t r, fb_takable G u ms e = Some t /\ fb_doTake G u ms e = Some r /\ (t = None <-> r = None) /\ next ch i r.
Proof.
  intros HS He Hch. unfold fb_doTake. destruct (take_ok_dec G f cx e) as [Hok|Hbad].
  - destruct (take_code ch i u f cx ex M ms e HS He Hok) as (r & Hr & Er). rewrite Er. cbn [mbind option_bind].
    pose proof (take_log G HN ch i u f cx ex e (si_log _ _ _ _ _ _ _ _ HS) He Hch Hok) as HI.
    pose proof (fin_log ch i e u _ _ _ r He HI Hr) as Hf. destruct (fin e r) as [u'|].
    2:{ eexists _, None. split; [done|]. split; [done|]. split; [done|]. done. }
    destruct Hf as [HI' Hend]. destruct (merge_code ch i u f cx ex M ms e HS He Hok) as (ms' & M' & Em & A' & R' & I'). rewrite Em. cbn [mbind option_bind].
    eexists _, _. split; [done|]. split; [done|]. split; [done|]. unfold next. destruct (Nat.eqb_spec (S i) n) as [En|En]; [by apply Hend|].
    intros e0 e' He0 He'. assert (e0 = e) as -> by congruence. by eapply update_code.
  - rewrite (take_code_no ch i u f cx ex M ms e HS He Hbad). cbn [mbind option_bind]. eexists _, None. split; [done|]. split; [done|]. split; [done|].
    by apply (take_bad G ch i (V0 i) u f cx ex e (si_log _ _ _ _ _ _ _ _ HS) He Hch).
Qed.

(** ** the diagram *)
Definition chv (v : vec) (a : nat) : bool := negb (v (n - a)%nat =? 0)%nat.
Definition Ok (v : vec) (b : bool) : Prop := b = true <-> good (chv v).
Definition SemOK (v : vec) (j : nat) : Prop := forall u f cx ex M ms, SInv (chv v) j u f cx ex M ms ->
  Ok v (zdd_eval (fb_spec G) (n - j) (Z.of_nat n - Z.of_nat j) (u, ms) v).
Definition outcome (i : nat) (r : Z * (Z * cells)) : Prop :=
  fst r = 0 \/ fst r = -1 \/ exists j ch u f cx ex M ms, (i <= j < n)%nat /\ r = (Z.of_nat n - Z.of_nat j, (u, ms)) /\ SInv ch j u f cx ex M ms.
Definition cset (ch : nat -> bool) (i : nat) (b : bool) (a : nat) : bool := if (a =? i)%nat then b else ch a.
Lemma cset_at ch i b : cset ch i b i = b.
Proof. unfold cset. by rewrite Nat.eqb_refl. Qed.
Lemma cset_lt ch i b a : (a < i)%nat -> ch a = cset ch i b a.
Proof. unfold cset. intros H. destruct (Nat.eqb_spec a i); [lia|done]. Qed.
Lemma cset_agree ch i b v : (forall a, (a < i)%nat -> chv v a = ch a) -> chv v i = b -> forall a, (a < S i)%nat -> cset ch i b a = chv v a.
Proof. intros H Hb a Ha. unfold cset. destruct (Nat.eqb_spec a i) as [->|]; [done|]. symmetry. apply H. lia. Qed.
Lemma Ok_no v : ~ good (chv v) -> Ok v false.
Proof. intros H. split; done. Qed.
(** acceptance after the last edge *)
Lemma eval_one s v k : zdd_eval (fb_spec G) k (-1) s v = true <-> forall j, (1 <= j <= k)%nat -> v j = 0%nat.
Proof.
  induction k as [|k IH]; cbn [zdd_eval]; [split; [intros _ j Hj; lia|done]|]. destruct (Z.eqb_spec (-1) (Z.of_nat (S k))); [lia|].
  destruct (Nat.eqb_spec (v (S k)) 0) as [E|E].
  - rewrite IH. split; [|intros H j Hj; apply H; lia]. intros H j Hj. destruct (decide (j = S k)) as [->|]; [done|]. apply H. lia.
  - split; [done|]. intros H. destruct E. apply H. lia.
Qed.

Lemma skip_ok : forall r i ch u f cx ex M ms, r = (n - i)%nat -> (i < n)%nat -> SInv ch i u f cx ex M ms ->
  exists res, fb_skip G (n - i) i u ms = Some res /\ outcome i res /\
  forall v, (forall a, (a < i)%nat -> chv v a = ch a) -> (forall j, (i <= j < n)%nat -> SemOK v j) -> Ok v (zdd_eval (fb_spec G) (n - i) (fst res) (snd res) v).
Proof.
  induction r as [|r IH]; intros i ch u f cx ex M ms Hr Hi HS; [lia|].
  destruct (lookup_lt_is_Some_2 es i Hi) as [e He]. rewrite <- Hr. cbn [fb_skip]. change (g_edgeInfo (fb_graph G)) with es. change (fb_n G) with n.
  rewrite He. cbn [mbind option_bind].
  assert (Hext : forall ch', (forall a, (a < i)%nat -> ch a = ch' a) -> SInv ch' i u f cx ex M ms) by (intros ch' H; by eapply SInv_ext).
  destruct (take_step (cset ch i true) i u f cx ex M ms e (Hext _ (cset_lt ch i true)) He (cset_at _ _ _)) as (t & rt & Et & _ & _ & _). rewrite Et. cbn [mbind option_bind].
  destruct t as [t|].
  { eexists. split; [reflexivity|]. split; [right; right; exists i, ch, u, f, cx, ex, M, ms; split_and!; [lia|lia|done|done]|].
    intros v Hv HSem. cbn [fst snd]. rewrite Hr. eapply HSem; [lia|]. apply Hext. intros a Ha. symmetry. by apply Hv. }
  assert (Hno1 : forall v, (forall a, (a < i)%nat -> chv v a = ch a) -> chv v i = true -> ~ good (chv v)).
  { intros v Hv Hc. destruct (take_step (chv v) i u f cx ex M ms e (Hext _ (fun a Ha => eq_sym (Hv a Ha))) He Hc) as (t' & rt' & Et' & _ & Htr & Hn).
    rewrite Et in Et'. injection Et' as <-. by rewrite (proj1 Htr eq_refl) in Hn. }
  assert (Hnt : exists rr, fb_doNotTake G u ms e = Some rr /\ forall ch', (forall a, (a < i)%nat -> ch a = ch' a) -> ch' i = false -> next ch' i (match rr with None => None | Some u => Some (u, ms) end)).
  { destruct (notTake_ok (cset ch i false) i u f cx ex M ms e (Hext _ (cset_lt ch i false)) He (cset_at _ _ _)) as (rr & Er & _). exists rr. split; [done|].
    intros ch' Hc' Hf. destruct (notTake_ok ch' i u f cx ex M ms e (Hext ch' Hc') He Hf) as (r' & Er' & Hn). assert (r' = rr) as -> by congruence. done. }
  destruct Hnt as (rr & Er & Hnx). rewrite Er. cbn [mbind option_bind]. destruct rr as [u1|].
  2:{ eexists. split; [reflexivity|]. split; [by left|]. intros v Hv _. cbn [fst snd]. rewrite zdd_eval_zero. apply Ok_no.
      destruct (chv v i) eqn:Hc; [by apply Hno1|]. by apply (Hnx (chv v) (fun a Ha => eq_sym (Hv a Ha)) Hc). }
  unfold next in Hnx. destruct (Nat.eqb_spec (S i) n) as [En|En].
  { eexists. split; [reflexivity|]. split; [by right; left|]. intros v Hv _. cbn [fst snd]. unfold Ok. rewrite eval_one. split.
    - intros Hz. apply (Hnx (chv v) (fun a Ha => eq_sym (Hv a Ha))). unfold chv. rewrite Hz by lia. done.
    - intros Hg j Hj. assert (j = (n - i)%nat) as -> by lia. destruct (decide (v (n - i) = 0)%nat) as [|Hne]; [done|]. exfalso. apply (Hno1 v Hv); [|done].
      unfold chv. by rewrite (proj2 (Nat.eqb_neq _ _)). }
  destruct (lookup_lt_is_Some_2 es (S i)) as [e' He']; [fold n; lia|]. rewrite He'. cbn [mbind option_bind].
  destruct (Hnx (cset ch i false) (cset_lt ch i false) (cset_at _ _ _) e e' He He') as (ms' & f1 & cx1 & ex1 & M1 & Eu & HS1). rewrite Eu. cbn [mbind option_bind].
  destruct (IH (S i) _ _ _ _ _ _ _ ltac:(lia) ltac:(lia) HS1) as (res & Hres & Hout' & Hsem). replace r with (n - S i)%nat by lia. exists res. split; [done|]. split.
  - destruct Hout' as [?|[?|(j & H)]]; [by left|by right; left|]. right; right. exists j. destruct H as (c & u' & f' & cx' & ex' & M' & ms2 & Hj & ?). exists c, u', f', cx', ex', M', ms2. split; [lia|done].
  - intros v Hv HSem. assert (Hne : fst res =? Z.of_nat (S (n - S i)) = false).
    { apply Z.eqb_neq. destruct Hout' as [->|[->|(j & c & u' & f' & cx' & ex' & M' & ms2 & Hj & -> & _)]]; cbn [fst]; lia. }
    cbn [zdd_eval]. rewrite Hne. replace (S (n - S i)) with (n - i)%nat by lia. destruct (v (n - i)%nat =? 0)%nat eqn:Hv0.
    + apply Hsem; [|intros j Hj; apply HSem; lia]. intros a Ha. symmetry. apply cset_agree; [done| |done]. unfold chv. by rewrite Hv0.
    + apply Ok_no, Hno1; [done|]. unfold chv. by rewrite Hv0.
Qed.

Lemma child_ok i ch u f cx ex M ms b : (i < n)%nat -> SInv ch i u f cx ex M ms ->
  exists res, fb_child G (u, ms) (n - i) b = Some res /\ outcome (S i) res /\
  forall v, (forall a, (a < i)%nat -> chv v a = ch a) -> (v (n - i) =? 0)%nat = negb b -> (forall j, (i < j < n)%nat -> SemOK v j) ->
    Ok v (zdd_eval (fb_spec G) (n - S i) (fst res) (snd res) v).
Proof.
  intros Hi HS. destruct (lookup_lt_is_Some_2 es i Hi) as [e He].
  unfold fb_child. change (g_edgeInfo (fb_graph G)) with es. change (fb_n G) with n.
  destruct (Nat.ltb_spec (n - i) 1); [lia|]. destruct (Nat.ltb_spec n (n - i)); [lia|]. cbn [orb]. replace (n - (n - i))%nat with i by lia.
  cbv zeta. rewrite He. cbn [mbind option_bind].
  assert (Hext : forall ch', (forall a, (a < i)%nat -> ch a = ch' a) -> SInv ch' i u f cx ex M ms) by (intros ch' H1; by eapply SInv_ext).
  assert (Hnt : exists rr, (if b then fb_doTake G u ms e else r ← fb_doNotTake G u ms e; Some (match r with None => None | Some uec => Some (uec, ms) end)) = Some rr /\
    forall ch', (forall a, (a < i)%nat -> ch a = ch' a) -> ch' i = b -> next ch' i rr).
  { destruct b.
    - destruct (take_step (cset ch i true) i u f cx ex M ms e (Hext _ (cset_lt ch i true)) He (cset_at _ _ _)) as (t & rr & _ & Er & _). exists rr. split; [done|].
      intros ch' Hc' Hf. destruct (take_step ch' i u f cx ex M ms e (Hext ch' Hc') He Hf) as (t' & r' & _ & Er' & _ & Hn). assert (r' = rr) as -> by congruence. done.
    - destruct (notTake_ok (cset ch i false) i u f cx ex M ms e (Hext _ (cset_lt ch i false)) He (cset_at _ _ _)) as (rr & Er & _). rewrite Er. cbn [mbind option_bind]. eexists. split; [reflexivity|].
      intros ch' Hc' Hf. destruct (notTake_ok ch' i u f cx ex M ms e (Hext ch' Hc') He Hf) as (r' & Er' & Hn). assert (r' = rr) as -> by congruence. done. }
  destruct Hnt as (rr & -> & Hnx). cbn [mbind option_bind].
  assert (Hb : forall v, (v (n - i) =? 0)%nat = negb b -> chv v i = b). { intros v Hv. unfold chv. by rewrite Hv, negb_involutive. }
  destruct rr as [[u1 ms1]|].
  2:{ eexists. split; [reflexivity|]. split; [by left|]. intros v Hv Hvb _. cbn [fst snd]. rewrite zdd_eval_zero. apply Ok_no.
      by apply (Hnx (chv v) (fun a Ha => eq_sym (Hv a Ha)) (Hb v Hvb)). }
  unfold next in Hnx. destruct (Nat.eqb_spec (S i) n) as [En|En].
  { eexists. split; [reflexivity|]. split; [by right; left|]. intros v Hv Hvb _. cbn [fst snd]. unfold Ok. rewrite eval_one. split.
    - intros _. by apply (Hnx (chv v) (fun a Ha => eq_sym (Hv a Ha)) (Hb v Hvb)).
    - intros _ j Hj. lia. }
  destruct (lookup_lt_is_Some_2 es (S i)) as [e' He']; [fold n; lia|]. rewrite He'. cbn [mbind option_bind].
  destruct (Hnx (cset ch i b) (cset_lt ch i b) (cset_at _ _ _) e e' He He') as (ms' & f1 & cx1 & ex1 & M1 & Eu & HS1). rewrite Eu. cbn [mbind option_bind].
  destruct (fb_look G).
  - destruct (skip_ok (n - S i) (S i) _ _ _ _ _ _ _ eq_refl ltac:(lia) HS1) as (res & Hres & Hout' & Hsem). exists res. split; [done|]. split; [done|].
    intros v Hv Hvb HSem. apply Hsem; [|intros j Hj; apply HSem; lia]. intros a Ha. symmetry. apply cset_agree; [done|by apply Hb|done].
  - eexists. split; [reflexivity|]. split; [right; right; exists (S i), (cset ch i b), u1, f1, cx1, ex1, M1, ms'; split_and!; [lia|lia|done|done]|].
    intros v Hv Hvb HSem. cbn [fst snd]. eapply HSem; [lia|]. eapply SInv_ext; [|exact HS1]. apply cset_agree; [done|by apply Hb].
Qed.

Lemma all_sem v : forall k j, (n - j <= k)%nat -> (j < n)%nat -> SemOK v j.
Proof.
  induction k as [|k IH]; intros j Hk Hj; [lia|]. intros u f cx ex M ms HS. replace (n - j)%nat with (S (n - S j)) by lia. cbn [zdd_eval].
  replace (Z.of_nat n - Z.of_nat j =? Z.of_nat (S (n - S j))) with true by (symmetry; apply Z.eqb_eq; lia).
  cbn [fb_spec get_child]. fold (fb_spec G). replace (Z.to_nat (Z.of_nat n - Z.of_nat j)) with (n - j)%nat by lia.
  replace (S (n - S j)) with (n - j)%nat by lia.
  destruct (child_ok j (chv v) u f cx ex M ms (negb (v (n - j) =? 0)%nat) Hj HS) as (res & -> & _ & Hsem). unfold default, id. cbn zeta. apply Hsem.
  - done.
  - by rewrite negb_involutive.
  - intros j' Hj'. apply IH; lia.
Qed.

(** ** the start *)
Lemma foldl_last (P : nat -> bool) : forall k, let r := foldl (fun r v => if P v then v else r) 0%nat (seq 1 k) in
  (forall x, (r < x <= k)%nat -> P x = false) /\ ((r = 0%nat) \/ ((1 <= r <= k)%nat /\ P r = true)).
Proof.
  induction k as [|k IH]; [cbn; split; [intros x Hx; lia|by left]|]. rewrite seq_S, foldl_app. cbn [foldl]. destruct IH as [I1 I2].
  replace (1 + k)%nat with (S k) by lia. destruct (P (S k)) eqn:HP.
  - split; [intros x Hx; lia|]. right. split; [lia|done].
  - split; [|destruct I2 as [?|[? ?]]; [by left|right; split; [lia|done]]]. intros x Hx. destruct (decide (x = S k)) as [->|]; [done|]. apply I1. lia.
Qed.
Lemma root_rep : Rep m 1 (fun x => x) col (fun _ => false) (fb_init_at G).
Proof.
  intros x Hx. unfold cellrep. assert (Ei : fb_init_at G x = FCell (wrap16 (if (0 <? col x)%nat then Z.of_nat (rootOfColor G (col x)) - Z.of_nat x else UNCOLORED)) 0).
  { unfold fb_init_at. change (vertexSize (fb_graph G)) with m. rewrite (proj2 (Nat.leb_le 1 x)) by lia. rewrite (proj2 (Nat.leb_le x m)) by lia. done. }
  rewrite Ei. cbn [hoc nxt]. split; [left; split; [done|]; intros y Hy; lia|].
  exists x. split; [split_and!; [lia|lia|done|]; intros z Hz; lia|]. left. split; [done|]. unfold hval.
  destruct (Nat.ltb_spec 0 (col x)) as [Hc|Hc].
  - left. split; [lia|]. pose proof (foldl_last (fun v => (colorNumber (fb_graph G) v =? col x)%nat) m) as Hr. cbv zeta in Hr. change (foldl _ 0%nat (seq 1 m)) with (rootOfColor G (col x)) in Hr.
    destruct Hr as [Hr1 Hr2]. assert (Hge : (x <= rootOfColor G (col x))%nat).
    { destruct (decide (x <= rootOfColor G (col x))%nat); [done|]. specialize (Hr1 x ltac:(lia)). apply Nat.eqb_neq in Hr1. done. }
    destruct Hr2 as [?|[Hr2 Hr3]]; [lia|]. apply Nat.eqb_eq in Hr3. exists (rootOfColor G (col x)). split_and!; [split_and!; [lia|lia|done|]|done|].
    + intros z Hz Ez. specialize (Hr1 z ltac:(lia)). apply Nat.eqb_neq in Hr1. done.
    + rewrite wrap16_id by lia. done.
  - right. split; [lia|]. done.
Qed.
Lemma root_ok ch : exists s, fb_root G = Some (Z.of_nat n, (N, s)) /\ SInv ch 0 N (fun x => x) col (fun _ => false) (fb_init_at G) s.
Proof.
  destruct (lookup_lt_is_Some_2 es 0 Hn0) as [e He]. unfold fb_root. change (g_edgeInfo (fb_graph G)) with es. rewrite He. cbn [mbind option_bind].
  change (fb_size G) with W. change (fb_n G) with n. pose proof (front_first m es HN 0 e He eq_refl) as E1.
  rewrite E1. rewrite (mapM_lookup m 1 W Hm W_bound (le_n 1) (fb_init G) (fb_init_at G) 1).
  2:{ intros k Hk. apply elem_of_seq in Hk. apply init_lookup. change (vertexSize (fb_graph G)) with m. change (fb_size G) with W. destruct (edge_ends 0 e He). lia. }
  cbn [mbind option_bind]. fold N. rewrite wrap16_id by lia. eexists. split; [reflexivity|].
  assert (V0 0 = 1%nat) as EV by (by rewrite (V0_at m es 0 e He)). constructor; rewrite ?EV.
  - apply (Log_root G HN HL Hm Hout ch HNr).
  - apply root_rep.
  - split; [by rewrite map_length, seq_length|]. intros k Hk. rewrite list_lookup_fmap, lookup_seq_lt by done. done.
  - done.
Qed.

Lemma fb_sem v : Ok v (zdd_sem (fb_spec G) n v).
Proof.
  destruct (root_ok (chv v)) as (s & Es & HS). unfold zdd_sem. cbn [fb_spec get_root]. fold (fb_spec G). rewrite Es. unfold default, id. cbn [fst snd].
  pose proof (all_sem v n 0 ltac:(lia) Hn0 _ _ _ _ _ _ HS) as H. by rewrite Nat.sub_0_r, Z.sub_0_r in H.
Qed.
Lemma fb_reach l s : reach (fb_spec G) l s -> exists j ch u f cx ex M ms, (j < n)%nat /\ l = Z.of_nat n - Z.of_nat j /\ s = (u, ms) /\ SInv ch j u f cx ex M ms.
Proof.
  induction 1 as [H|l s b Hr (j & ch & u & f & cx & ex & M & ms & Hj & -> & -> & HS) Hb Hp].
  - destruct (root_ok (fun _ => false)) as (s & Es & HS). cbn [fb_spec get_root] in *. rewrite Es in *. unfold default, id in *. cbn [fst snd] in *.
    exists 0%nat. eexists _, _, _, _, _, _, _. split; [lia|]. split; [lia|]. split; [reflexivity|exact HS].
  - cbn [fb_spec get_child] in *. replace (Z.to_nat (Z.of_nat n - Z.of_nat j)) with (n - j)%nat in * by lia.
    destruct (child_ok j ch u f cx ex M ms (negb (b =? 0)%nat) Hj HS) as (res & Eres & Hout' & _). rewrite Eres in *. unfold default, id in *.
    assert (Hp' : 0 < fst res) by exact Hp. clear Hp.
    destruct Hout' as [E1|[E1|(j' & ch' & u' & f' & cx' & ex' & M' & ms' & Hj' & -> & HS')]]; [lia|lia|]. exists j', ch', u', f', cx', ex', M', ms'. split_and!; [lia|done|done|done].
Qed.
Lemma fb_safe l s b : reach (fb_spec G) l s -> is_Some (fb_child G s (Z.to_nat l) b).
Proof.
  intros (j & ch & u & f & cx & ex & M & ms & Hj & -> & -> & HS)%fb_reach. replace (Z.to_nat (Z.of_nat n - Z.of_nat j)) with (n - j)%nat by lia.
  destruct (child_ok j ch u f cx ex M ms b Hj HS) as (res & -> & _). by eexists.
Qed.
Lemma fb_levels l s b : reach (fb_spec G) l s -> -1 <= fst (get_child (fb_spec G) s l b) < l.
Proof.
  intros Hr. pose proof (fb_reach _ _ Hr) as (j & ch & u & f & cx & ex & M & ms & Hj & -> & -> & HS). cbn [fb_spec get_child].
  replace (Z.to_nat (Z.of_nat n - Z.of_nat j)) with (n - j)%nat by lia.
  destruct (child_ok j ch u f cx ex M ms (negb (b =? 0)%nat) Hj HS) as (res & -> & Hout' & _). unfold default, id.
  change (-1 <= fst res < Z.of_nat n - Z.of_nat j).
  destruct Hout' as [->|[->|(j' & ch' & u' & f' & cx' & ex' & M' & ms' & Hj' & -> & _)]]; cbn [fst]; lia.
Qed.
End search.

Lemma fb_congr G : spec_congr (fb_spec G).
Proof.
  constructor; cbn [fb_spec equal_to].
  - intros. by apply bool_decide_eq_true.
  - intros. apply bool_decide_ext. split; congruence.
  - intros l s s' s'' _ _ _ H1 H2. apply bool_decide_eq_true in H1, H2. subst. by apply bool_decide_eq_true.
  - intros l s s' b _ _ _ H. apply bool_decide_eq_true in H. subst. split; [done|]. intros _. by apply bool_decide_eq_true.
Qed.
Lemma fb_shareable G : shareable (fb_spec G).
Proof.
  split; cbn [fb_spec equal_to hash_code].
  - intros. apply bool_decide_ext. split; congruence.
  - intros l s s' H. apply bool_decide_eq_true in H. by subst.
Qed.
