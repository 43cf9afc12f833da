(** FrontierBasedSearch: the components of the edges chosen so far. *)
From stdpp Require Import strings gmap.
From Verif Require Import Base Sem P_Size M_Graph S_Graph P_Front M_Degree S_Degree P_Degree M_Fbs S_Simpath S_Fbs P_Fbs1 P_Fbs2.
Local Open Scope Z_scope.

(** ** adding an edge to a relation *)
Section addedge.
Context (R R' : nat -> nat -> Prop) (a b : nat).
Context (Hsym : forall x y, R x y -> R y x) (HR' : forall x y, R' x y <-> R x y \/ (x = a /\ y = b) \/ (x = b /\ y = a)).
Lemma add_rtc x y : rtc R' x y <-> rtc R x y \/ (rtc R x a /\ rtc R b y) \/ (rtc R x b /\ rtc R a y).
Proof.
  split.
  - induction 1 as [x|x z y Hxz Hzy IH]; [by left|]. apply HR' in Hxz as [Hxz|[[-> ->]|[-> ->]]].
    + destruct IH as [IH|[[IH1 IH2]|[IH1 IH2]]]; [left; by eapply rtc_l|right; left|right; right]; (split; [by eapply rtc_l|done]).
    + destruct IH as [IH|[[IH1 IH2]|[IH1 IH2]]]; [right; left; done|right; left; done|left; done].
    + destruct IH as [IH|[[IH1 IH2]|[IH1 IH2]]]; [right; right; done|left; done|right; right; done].
  - assert (H : forall x y, rtc R x y -> rtc R' x y) by (intros ? ?; apply rtc_subrel; intros ? ? ?; apply HR'; by left).
    intros [?|[[H1 H2]|[H1 H2]]]; [by apply H| |].
    + etrans; [by apply H|]. eapply rtc_l; [|by apply H]. apply HR'. right. by left.
    + etrans; [by apply H|]. eapply rtc_l; [|by apply H]. apply HR'. right. by right.
Qed.
End addedge.
Lemma rtc_symm (R : nat -> nat -> Prop) x y : (forall x y, R x y -> R y x) -> rtc R x y -> rtc R y x.
Proof. intros Hs. induction 1 as [|x z y H _ IH]; [done|]. eapply rtc_r; [exact IH|by apply Hs]. Qed.

Lemma inj_length (P : nat -> nat -> Prop) : forall R1 R2, NoDup R1 -> (forall r, r ∈ R1 -> exists r', r' ∈ R2 /\ P r r') ->
  (forall r1 r2 r', r1 ∈ R1 -> r2 ∈ R1 -> P r1 r' -> P r2 r' -> r1 = r2) -> (length R1 <= length R2)%nat.
Proof.
  induction R1 as [|r R1 IH]; intros R2 Hnd Hex Hinj; [cbn; lia|]. apply NoDup_cons in Hnd as [Hr Hnd].
  destruct (Hex r) as (r' & Hr' & HP); [set_solver|]. apply elem_of_Permutation in Hr' as [R3 HR3]. rewrite HR3. cbn. apply le_n_S. apply IH; [done| |].
  - intros s Hs. destruct (Hex s) as (s' & Hs' & HPs); [set_solver|]. rewrite HR3 in Hs'. apply elem_of_cons in Hs' as [->|Hs']; [|by exists s'].
    destruct Hr. rewrite (Hinj r s r'); [done|set_solver|set_solver|done|done].
  - intros r1 r2 s H1 H2. apply Hinj; set_solver.
Qed.

Section logic.
Context (G : fbs).
Let g := fb_graph G.
Let es := g_edgeInfo g.
Let m := vertexSize g.
Let n := length es.
Let W := fb_size G.
Let col := colorNumber g.
Let N := fb_numUEC G.
Context (HN : numbering_ok m es) (HL : loop_free g) (Hm : Z.of_nat m <= 32766).
Context (Hout : forall x, col x <> 0%nat -> (1 <= x <= m)%nat).

Notation V0 := (V0 m es).

(** the chosen edges among the first i; those other than number a *)
Definition E (ch : nat -> bool) (i : nat) (x y : nat) : Prop :=
  exists a e, (a < i)%nat /\ es !! a = Some e /\ ch a = true /\ joins e x y.
Definition Ebut (ch : nat -> bool) (c i : nat) (x y : nat) : Prop :=
  exists a e, a <> c /\ (a < i)%nat /\ es !! a = Some e /\ ch a = true /\ joins e x y.
Definition C ch i := rtc (E ch i).

Definition free (ch : nat -> bool) (x : nat) : Prop := (exists y, E ch n x y) /\ forall y, C ch n x y -> col y = 0%nat.
Definition good (ch : nat -> bool) : Prop :=
  (forall x y, col x <> 0%nat -> col y <> 0%nat -> C ch n x y <-> col x = col y) /\
  (0 <= N -> exists R, NoDup R /\ Z.of_nat (length R) = N /\ (forall r, r ∈ R -> free ch r) /\
     forall x, free ch x -> exists r, (r ∈ R /\ C ch n x r) /\ forall r', r' ∈ R -> C ch n x r' -> r' = r) /\
  (fb_noLoop G = true -> forall a e, es !! a = Some e -> ch a = true -> ~ rtc (Ebut ch a n) (e_v1 e) (e_v2 e)).

Record Log (ch : nat -> bool) (i B : nat) (uec : Z) (f cx : nat -> nat) (ex : nat -> bool) : Prop := {
  lg_f : forall x y, f x = f y <-> C ch i x y;
  lg_cf : forall x y, f x = f y -> cx x = cx y;
  lg_c1 : forall x, col x <> 0%nat -> cx x = col x;
  lg_c2 : forall x, cx x <> 0%nat -> exists y, f y = f x /\ col y = cx x;
  lg_e : forall x, ex x = true <-> exists y, E ch i x y;
  lg_gone : forall x, (forall y, f y = f x -> (y < B)%nat) -> cx x <> 0%nat -> forall y, col y = cx x -> f y = f x;
  lg_loop : fb_noLoop G = true -> forall a e, (a < i)%nat -> es !! a = Some e -> ch a = true -> ~ rtc (Ebut ch a i) (e_v1 e) (e_v2 e);
  lg_cnt : (N < 0 /\ uec = N) \/ (0 <= N /\ 0 <= uec /\ exists R, NoDup R /\ uec = N - Z.of_nat (length R) /\
    (forall r, r ∈ R -> (forall y, f y = f r -> (y < B)%nat) /\ cx r = 0%nat /\ ex r = true) /\
    (forall r r', r ∈ R -> r' ∈ R -> f r = f r' -> r = r') /\
    (forall x, (forall y, f y = f x -> (y < B)%nat) -> cx x = 0%nat -> ex x = true -> exists r, r ∈ R /\ f r = f x))
}.

Lemma joins_sym e x y : joins e x y -> joins e y x.
Proof. unfold joins. tauto. Qed.
Lemma E_sym ch i x y : E ch i x y -> E ch i y x.
Proof. intros (a & e & Ha & He & Hc & Hj). exists a, e. split_and!; [done|done|done|by apply joins_sym]. Qed.
Lemma Ebut_sym ch c i x y : Ebut ch c i x y -> Ebut ch c i y x.
Proof. intros (a & e & Hac & Ha & He & Hc & Hj). exists a, e. split_and!; [done|done|done|done|by apply joins_sym]. Qed.
Lemma C_sym ch i x y : C ch i x y -> C ch i y x.
Proof. apply rtc_symm, E_sym. Qed.
Lemma E_mono ch i j x y : (i <= j)%nat -> E ch i x y -> E ch j x y.
Proof. intros Hij (a & e & Ha & H). exists a, e. split; [lia|done]. Qed.
Lemma C_mono ch i j x y : (i <= j)%nat -> C ch i x y -> C ch j x y.
Proof. intros Hij. apply rtc_subrel. intros ? ?. by apply E_mono. Qed.
Lemma E_S ch i e x y : es !! i = Some e -> E ch (S i) x y <-> E ch i x y \/ (ch i = true /\ joins e x y).
Proof.
  intros He. split.
  - intros (a & f & Ha & Hf & Hc & Hj). destruct (decide (a = i)) as [->|]; [right; split; [done|congruence]|]. left. exists a, f. split; [lia|done].
  - intros [H|[Hc Hj]]; [eapply E_mono; [|done]; lia|]. exists i, e. split; [lia|done].
Qed.
Lemma E_ext ch ch' i x y : (forall a, (a < i)%nat -> ch a = ch' a) -> E ch i x y <-> E ch' i x y.
Proof. intros H. split; intros (a & e & Ha & He & Hc & Hj); exists a, e; (split_and!; [done|done| |done]); [by rewrite <- H|by rewrite H]. Qed.
Lemma Ebut_ext ch ch' c i x y : (forall a, (a < i)%nat -> ch a = ch' a) -> Ebut ch c i x y <-> Ebut ch' c i x y.
Proof. intros H. split; intros (a & e & Hac & Ha & He & Hc & Hj); exists a, e; (split_and!; [done|done|done| |done]); [by rewrite <- H|by rewrite H]. Qed.
Lemma rtc_ext (R R' : nat -> nat -> Prop) x y : (forall x y, R x y <-> R' x y) -> rtc R x y <-> rtc R' x y.
Proof. intros H. split; apply rtc_subrel; intros ? ?; by apply H. Qed.
Lemma E_in ch i x y : E ch i x y -> exists a e, (a < i)%nat /\ es !! a = Some e /\ (e_v1 e = x \/ e_v2 e = x) /\ (e_v1 e = y \/ e_v2 e = y) /\ x <> y.
Proof.
  intros (a & e & Ha & He & _ & Hj). exists a, e. pose proof (HL _ _ He). unfold joins in Hj. split; [done|]. split; [done|]. split_and!; [| |intros ->]; intuition congruence.
Qed.
Lemma C_in ch i x y : C ch i x y -> x = y \/ exists z, E ch i x z.
Proof. intros H. inversion H as [|? z ? Hxz _]; [by left|]. right. by exists z. Qed.
Lemma Log_ext ch ch' i B u f cx ex : (forall a, (a < i)%nat -> ch a = ch' a) -> Log ch i B u f cx ex -> Log ch' i B u f cx ex.
Proof.
  intros H []. constructor; try done.
  - intros x y. rewrite lg_f0. apply rtc_ext. intros ? ?. by apply E_ext.
  - intros x. rewrite lg_e0. split; intros [y Hy]; exists y; [by apply (E_ext ch ch')|by apply (E_ext ch ch')].
  - intros Hn a e Ha He Hc Hr. rewrite <- H in Hc by done. apply (lg_loop0 Hn a e Ha He Hc). eapply rtc_ext; [|exact Hr]. intros ? ?. by apply Ebut_ext.
Qed.

(** ** the start *)
Lemma Log_root ch : -32768 <= N <= 32767 -> Log ch 0 1 N (fun x => x) col (fun _ => false).
Proof.
  intros HNr. assert (HE : forall x y, ~ E ch 0 x y) by (intros x y (a & e & Ha & _); lia).
  constructor.
  - intros x y. split; [by intros ->|]. intros [->|[z Hz]]%C_in; [done|]. by destruct (HE x z).
  - by intros x y ->.
  - done.
  - intros x Hx. by exists x.
  - intros x. split; [done|]. intros [y Hy]. by destruct (HE x y).
  - intros x Hx Hc. exfalso. specialize (Hx x eq_refl). apply Hout in Hc. lia.
  - intros _ a e Ha. lia.
  - destruct (decide (N < 0)); [by left|right]. split_and!; [lia|lia|]. exists []. split_and!; [constructor|cbn; lia|set_solver|set_solver|]. done.
Qed.

(** ** taking an edge *)
Definition mf (f : nat -> nat) (a b x : nat) : nat := if decide (f x = f b) then f a else f x.
Definition inU (f : nat -> nat) (a b x : nat) : Prop := f x = f a \/ f x = f b.
#[local] Instance inU_dec f a b x : Decision (inU f a b x).
Proof. unfold inU. apply _. Defined.
Definition mcx (f cx : nat -> nat) (a b x : nat) : nat := if decide (inU f a b x) then Nat.max (cx a) (cx b) else cx x.
Definition mex (f : nat -> nat) (ex : nat -> bool) (a b x : nat) : bool := if decide (inU f a b x) then true else ex x.
Lemma mf_iff f a b x y : mf f a b x = mf f a b y <-> f x = f y \/ (inU f a b x /\ inU f a b y).
Proof.
  unfold mf, inU. destruct (decide (f x = f b)) as [E1|E1], (decide (f y = f b)) as [E2|E2]; intuition congruence.
Qed.
Lemma inU_f f a b x y : f x = f y -> inU f a b x <-> inU f a b y.
Proof. unfold inU. by intros ->. Qed.

Definition take_ok (f cx : nat -> nat) (e : edge_info) : Prop :=
  (fb_noLoop G = true -> f (e_v1 e) <> f (e_v2 e)) /\ (cx (e_v1 e) = 0%nat \/ cx (e_v2 e) = 0%nat \/ cx (e_v1 e) = cx (e_v2 e)).
Lemma take_ok_dec f cx e : Decision (take_ok f cx e).
Proof. unfold take_ok. apply _. Qed.

Lemma take_log ch i u f cx ex e : Log ch i (V0 i) u f cx ex -> es !! i = Some e -> ch i = true -> take_ok f cx e ->
  Log ch (S i) (V0 i) u (mf f (e_v1 e) (e_v2 e)) (mcx f cx (e_v1 e) (e_v2 e)) (mex f ex (e_v1 e) (e_v2 e)).
Proof.
  intros HI He Hch [Hloop Hcol]. set (a := e_v1 e) in *. set (b := e_v2 e) in *.
  assert (HES : forall x y, E ch (S i) x y <-> E ch i x y \/ (x = a /\ y = b) \/ (x = b /\ y = a)).
  { intros x y. rewrite (E_S ch i e x y He). unfold joins. fold a b. rewrite Hch. clear. intuition congruence. }
  pose proof (no_range _ _ HN _ _ He) as (R0 & R1 & R2 & R3). fold a b in R1, R2, R3. rewrite <- (V0_at m es i e He) in R1.
  assert (HUa : inU f a b a) by (by left). assert (HUb : inU f a b b) by (by right).
  assert (HcxU : forall x, inU f a b x -> cx x = cx a \/ cx x = cx b).
  { intros x [E0|E0]; [left|right]; by apply (lg_cf _ _ _ _ _ _ _ HI). }
  assert (HmU : forall x, inU f a b x -> mcx f cx a b x = Nat.max (cx a) (cx b)). { intros x HU. unfold mcx. by rewrite decide_True. }
  assert (HmN : forall x, ~ inU f a b x -> mcx f cx a b x = cx x). { intros x HU. unfold mcx. by rewrite decide_False. }
  assert (Hgone : forall x, (forall y, mf f a b y = mf f a b x -> (y < V0 i)%nat) -> ~ inU f a b x /\ forall y, f y = f x -> (y < V0 i)%nat).
  { intros x Hx. split.
    - intros HU. specialize (Hx a). rewrite mf_iff in Hx. specialize (Hx (or_intror (conj HUa HU))). lia.
    - intros y Ey. apply Hx. apply mf_iff. by left. }
  assert (HfN : forall x y, ~ inU f a b x -> mf f a b y = mf f a b x <-> f y = f x).
  { intros x y HU. rewrite mf_iff. split; [intros [?|[_ ?]]; done|by left]. }
  constructor.
  - intros x y. rewrite mf_iff. unfold C. rewrite (add_rtc (E ch i) (E ch (S i)) a b HES). unfold inU. rewrite !(lg_f _ _ _ _ _ _ _ HI).
    change (rtc (E ch i)) with (C ch i). split.
    + intros [?|[[H1|H1] [H2|H2]]]; [by left| | | |].
      * left. etrans; [exact H1|by apply C_sym].
      * right. left. split; [done|by apply C_sym].
      * right. right. split; [done|by apply C_sym].
      * left. etrans; [exact H1|by apply C_sym].
    + intros [?|[[H1 H2]|[H1 H2]]]; [by left|right|right]; (split; [|]).
      * by left.
      * right. by apply C_sym.
      * by right.
      * left. by apply C_sym.
  - intros x y Exy. apply mf_iff in Exy as [Exy|[H1 H2]]; [|by rewrite !HmU]. destruct (decide (inU f a b x)) as [HU|HU].
    + rewrite !HmU; [done| |done]. by apply (inU_f f a b x y Exy).
    + rewrite !HmN; [by apply (lg_cf _ _ _ _ _ _ _ HI)| |done]. by rewrite <- (inU_f f a b x y Exy).
  - intros x Hx. destruct (decide (inU f a b x)) as [HU|HU]; [|rewrite HmN by done; by apply (lg_c1 _ _ _ _ _ _ _ HI)].
    rewrite HmU by done. pose proof (lg_c1 _ _ _ _ _ _ _ HI x Hx). destruct (HcxU x HU); lia.
  - intros x Hx. destruct (decide (inU f a b x)) as [HU|HU].
    + rewrite HmU in * by done. assert (exists c, inU f a b c /\ cx c = Nat.max (cx a) (cx b)) as (c & HUc & Ec).
      { destruct (Nat.max_spec (cx a) (cx b)) as [[_ ->]|[_ ->]]; [by exists b|by exists a]. }
      rewrite <- Ec in Hx. destruct (lg_c2 _ _ _ _ _ _ _ HI c Hx) as (y & Ey & Cy). exists y. split; [|congruence].
      apply mf_iff. right. split; [|done]. by apply (inU_f f a b y c Ey).
    + rewrite HmN in * by done. destruct (lg_c2 _ _ _ _ _ _ _ HI x Hx) as (y & Ey & Cy). exists y. split; [|done]. by apply HfN.
  - intros x. unfold mex. destruct (decide (inU f a b x)) as [HU|HU].
    + split; [intros _|done]. destruct HU as [E0|E0]; apply (lg_f _ _ _ _ _ _ _ HI), C_in in E0 as [->|[z Hz]].
      * exists b. apply HES. right. by left.
      * exists z. apply HES. by left.
      * exists a. apply HES. right. by right.
      * exists z. apply HES. by left.
    + rewrite (lg_e _ _ _ _ _ _ _ HI). split; intros [y Hy]; exists y; [apply HES; by left|]. apply HES in Hy as [?|[[-> _]|[-> _]]]; done.
  - intros x Hx Hc y Hy. apply Hgone in Hx as [HU Hx]. rewrite HmN in * by done. apply HfN; [done|]. by apply (lg_gone _ _ _ _ _ _ _ HI x Hx Hc).
  - intros Hno c e' Hci He' Hcc Hr. specialize (Hloop Hno). destruct (decide (c = i)) as [->|Hne].
    + assert (e' = e) as -> by congruence. apply Hloop. apply (lg_f _ _ _ _ _ _ _ HI). eapply rtc_subrel; [|exact Hr].
      intros x y (a' & f' & Ha' & Hi' & Hf' & Hca' & Hj'). exists a', f'. split; [lia|done].
    + assert (HEb : forall x y, Ebut ch c (S i) x y <-> Ebut ch c i x y \/ (x = a /\ y = b) \/ (x = b /\ y = a)).
      { intros x y. split.
        - intros (a' & f' & Ha' & Hi' & Hf' & Hca' & Hj'). destruct (decide (a' = i)) as [->|].
          + right. assert (f' = e) as -> by congruence. unfold joins in Hj'. fold a b in Hj'. clear -Hj'. intuition congruence.
          + left. exists a', f'. split_and!; [done|lia|done|done|done].
        - intros [(a' & f' & Ha' & Hi' & Hf' & Hca' & Hj')|Hab].
          + exists a', f'. split_and!; [done|lia|done|done|done].
          + exists i, e. split_and!; [done|lia|done|done|]. unfold joins. fold a b. clear -Hab. intuition congruence. }
      apply (add_rtc (Ebut ch c i) _ a b HEb) in Hr.
      assert (Hsub : forall x y, rtc (Ebut ch c i) x y -> C ch i x y).
      { intros x y. apply rtc_subrel. intros ? ? (a' & f' & _ & Hi' & Hf' & Hca' & Hj'). by exists a', f'. }
      assert (Hc12 : C ch i (e_v1 e') (e_v2 e')). { apply rtc_once. exists c, e'. split_and!; [lia|done|done|by left]. }
      destruct Hr as [Hr|[[H1 H2]|[H1 H2]]].
      * by apply (lg_loop _ _ _ _ _ _ _ HI Hno c e' ltac:(lia) He' Hcc).
      * apply Hloop, (lg_f _ _ _ _ _ _ _ HI). etrans; [apply C_sym, Hsub, H1|]. etrans; [exact Hc12|]. apply C_sym, Hsub, H2.
      * apply Hloop, (lg_f _ _ _ _ _ _ _ HI). etrans; [apply Hsub, H2|]. etrans; [apply C_sym, Hc12|]. apply Hsub, H1.
  - destruct (lg_cnt _ _ _ _ _ _ _ HI) as [?|(HN0 & Hu & R & Hnd & Eu & HR1 & HR2 & HR3)]; [by left|right]. split_and!; [done|done|].
    assert (HRU : forall r, r ∈ R -> ~ inU f a b r).
    { intros r Hr [E0|E0]; destruct (HR1 r Hr) as (H & _); [specialize (H a (eq_sym E0))|specialize (H b (eq_sym E0))]; lia. }
    exists R. split_and!; [done|done| | |].
    + intros r Hr. pose proof (HRU r Hr) as HU. destruct (HR1 r Hr) as (H1 & H2 & H3). split_and!.
      * intros y Ey. apply HfN in Ey; [|done]. by apply H1.
      * by rewrite HmN.
      * unfold mex. by rewrite decide_False.
    + intros r r' Hr Hr' Err. apply HfN in Err; [|by apply HRU]. by apply HR2.
    + intros x Hx Hc Hex. apply Hgone in Hx as [HU Hx]. rewrite HmN in Hc by done. unfold mex in Hex. rewrite decide_False in Hex by done.
      destruct (HR3 x Hx Hc Hex) as (r & Hr & Er). exists r. split; [done|]. by apply HfN.
Qed.

(** not taking it *)
Lemma skip_log ch i B u f cx ex e : Log ch i B u f cx ex -> es !! i = Some e -> ch i = false -> Log ch (S i) B u f cx ex.
Proof.
  intros HI He Hch. assert (HES : forall x y, E ch (S i) x y <-> E ch i x y).
  { intros x y. rewrite (E_S ch i e x y He), Hch. split; [intros [?|[? _]]; done|by left]. }
  destruct HI. constructor; try done.
  - intros x y. rewrite lg_f0. apply rtc_ext. intros ? ?. by rewrite HES.
  - intros x. rewrite lg_e0. split; intros [y Hy]; exists y; by apply HES.
  - intros Hn a e' Ha He' Hc Hr. destruct (decide (a = i)) as [->|]; [congruence|]. apply (lg_loop0 Hn a e' ltac:(lia) He' Hc).
    eapply rtc_subrel; [|exact Hr]. intros x y (a' & f' & Ha' & Hi' & Hf' & Hca' & Hj'). exists a', f'. split_and!; [done| |done|done|done].
    destruct (decide (a' = i)) as [->|]; [congruence|lia].
Qed.

(** a bad edge *)
Lemma take_bad ch i B u f cx ex e : Log ch i B u f cx ex -> es !! i = Some e -> ch i = true -> ~ take_ok f cx e -> ~ good ch.
Proof.
  intros HI He Hch Hbad (Ga & Gb & Gc). apply Hbad. split.
  - intros Hno Ef. apply (lg_f _ _ _ _ _ _ _ HI) in Ef. apply (Gc Hno i e He Hch). eapply rtc_subrel; [|exact Ef].
    intros x y (a & f' & Ha & Hf' & Hca & Hj). exists a, f'. split_and!; [lia| |done|done|done]. apply lookup_lt_Some in Hf'. done.
  - destruct (decide (cx (e_v1 e) = 0%nat)) as [|H1]; [by left|right]. destruct (decide (cx (e_v2 e) = 0%nat)) as [|H2]; [by left|right].
    destruct (lg_c2 _ _ _ _ _ _ _ HI _ H1) as (y1 & E1 & C1). destruct (lg_c2 _ _ _ _ _ _ _ HI _ H2) as (y2 & E2 & C2).
    rewrite <- C1, <- C2. apply Ga; [congruence|congruence|]. apply (lg_f _ _ _ _ _ _ _ HI) in E1, E2. pose proof (lookup_lt_Some _ _ _ He) as Hlt.
    assert (i <= n)%nat by (unfold n; lia). etrans; [eapply C_mono; [|exact E1]; done|]. etrans; [|eapply C_mono; [|apply C_sym; exact E2]; done].
    apply rtc_once. exists i, e. split_and!; [done|done|done|by left].
Qed.

(** ** a vertex leaves *)
Definition stays (f : nat -> nat) (B : nat) : Prop := exists y, (B < y <= m)%nat /\ f y = f B.
Definition hangs (cx : nat -> nat) (B : nat) : Prop := exists y, (B < y <= m)%nat /\ cx y = cx B.
(** the counter after the vertex B has left *)
Definition leave1 (f cx : nat -> nat) (ex : nat -> bool) (B : nat) (u : Z) (r : option Z) : Prop :=
  (stays f B /\ r = Some u) \/
  (~ stays f B /\ cx B <> 0%nat /\ hangs cx B /\ r = None) \/
  (~ stays f B /\ cx B <> 0%nat /\ ~ hangs cx B /\ r = Some u) \/
  (~ stays f B /\ cx B = 0%nat /\ ex B = false /\ r = Some u) \/
  (~ stays f B /\ cx B = 0%nat /\ ex B = true /\ u = 0 /\ r = None) \/
  (~ stays f B /\ cx B = 0%nat /\ ex B = true /\ u <> 0 /\ r = Some (if 0 <? u then u - 1 else u)).

Section leave.
Context (ch : nat -> bool) (i B : nat) (u : Z) (f cx : nat -> nat) (ex : nat -> bool).
Context (HI : Log ch i B u f cx ex) (HB : (1 <= B <= m)%nat) (Hi : (i <= n)%nat).
Context (Hlast : forall x b, (1 <= x <= B)%nat -> (i <= b)%nat -> ~ incident es b x).

Lemma f_in x y : f x = f y -> x <> y -> (1 <= x <= m)%nat.
Proof.
  intros Ef Hne. apply (lg_f _ _ _ _ _ _ _ HI), C_in in Ef as [?|[z Hz]]; [done|]. apply E_in in Hz as (a & e & Ha & He & Hx & _).
  pose proof (no_range _ _ HN _ _ He). lia.
Qed.
(** a component without vertices after B is complete *)
Lemma closed x y : (1 <= x <= m)%nat -> (forall z, f z = f x -> (z <= B)%nat) -> C ch n x y -> f y = f x.
Proof.
  intros Hx Hcl H. symmetry. revert Hx Hcl. induction H as [x|x z y Hxz Hzy IH]; intros Hx Hcl; [done|].
  assert (E ch i x z) as Hxz'.
  { destruct Hxz as (a & e & Ha & He & Hc & Hj). exists a, e. split_and!; [|done|done|done]. destruct (decide (a < i)%nat); [done|]. exfalso.
    specialize (Hcl x eq_refl). apply (Hlast x a); [lia|lia|]. exists e. split; [done|]. unfold joins in Hj. clear -Hj. intuition congruence. }
  assert (f x = f z) as Ef. { apply (lg_f _ _ _ _ _ _ _ HI). by apply rtc_once. }
  rewrite Ef. apply IH.
  - destruct (decide (z = x)) as [->|]; [done|]. by apply (f_in z x).
  - intros w Hw. apply Hcl. congruence.
Qed.
Lemma not_stays : ~ stays f B -> forall y, f y = f B -> (y <= B)%nat.
Proof. intros H y Ey. destruct (decide (y <= B)%nat); [done|]. exfalso. apply H. exists y. split; [|done]. pose proof (f_in y B Ey ltac:(lia)). lia. Qed.
Lemma gone_S x : (forall y, f y = f x -> (y < S B)%nat) -> f x <> f B -> forall y, f y = f x -> (y < B)%nat.
Proof. intros H Hne y Ey. specialize (H y Ey). assert (y <> B) by congruence. lia. Qed.
Lemma gone_B x : f x = f B -> (forall y, f y = f x -> (y < S B)%nat) -> ~ stays f B.
Proof. intros Ex H (y & Hy & Ey). specialize (H y ltac:(congruence)). lia. Qed.
Lemma cx_free x : (1 <= x <= m)%nat -> (forall z, f z = f x -> (z <= B)%nat) -> cx x = 0%nat -> ex x = true -> free ch x.
Proof.
  intros Hx Hcl Hc He. split.
  - apply (lg_e _ _ _ _ _ _ _ HI) in He as [y Hy]. exists y. by eapply E_mono.
  - intros y Hy. apply closed in Hy; [|done|done]. destruct (decide (col y = 0%nat)) as [|Hn]; [done|]. rewrite <- (lg_c1 _ _ _ _ _ _ _ HI y Hn). rewrite <- Hc. by apply (lg_cf _ _ _ _ _ _ _ HI).
Qed.
Lemma ex_in x : ex x = true -> (1 <= x <= m)%nat.
Proof. intros [y Hy]%(lg_e _ _ _ _ _ _ _ HI). apply E_in in Hy as (a & e & Ha & He & Hx & _). pose proof (no_range _ _ HN _ _ He). lia. Qed.

Lemma leave1_some u' : leave1 f cx ex B u (Some u') -> Log ch i (S B) u' f cx ex.
Proof.
  intros H.
  assert (Hrest : (forall x, (forall y, f y = f x -> (y < S B)%nat) -> cx x <> 0%nat -> forall y, col y = cx x -> f y = f x) ->
    ((N < 0 /\ u' = N) \/ (0 <= N /\ 0 <= u' /\ exists R, NoDup R /\ u' = N - Z.of_nat (length R) /\
    (forall r, r ∈ R -> (forall y, f y = f r -> (y < S B)%nat) /\ cx r = 0%nat /\ ex r = true) /\
    (forall r r', r ∈ R -> r' ∈ R -> f r = f r' -> r = r') /\
    (forall x, (forall y, f y = f x -> (y < S B)%nat) -> cx x = 0%nat -> ex x = true -> exists r, r ∈ R /\ f r = f x))) -> Log ch i (S B) u' f cx ex).
  { intros H1 H2. destruct HI. by constructor. }
  apply Hrest; clear Hrest.
  - intros x Hx Hc y Hy. destruct (decide (f x = f B)) as [Ex|Ex]; [|by apply (lg_gone _ _ _ _ _ _ _ HI x (gone_S x Hx Ex) Hc)].
    pose proof (gone_B x Ex Hx) as Hst. pose proof (lg_cf _ _ _ _ _ _ _ HI _ _ Ex) as Ec. rewrite Ec in *.
    destruct H as [[? _]|[(_ & _ & _ & ?)|[(_ & _ & Hh & _)|[(_ & ? & _)|[(_ & ? & _)|(_ & ? & _)]]]]]; try done.
    assert (Hcy : cx y = cx B). { rewrite <- Hy. apply (lg_c1 _ _ _ _ _ _ _ HI). congruence. }
    assert (Hym : (1 <= y <= m)%nat) by (apply Hout; congruence).
    assert (y <= B)%nat as HyB. { destruct (decide (y <= B)%nat); [done|]. exfalso. apply Hh. exists y. split; [lia|done]. }
    (* y's component has a vertex >= B, or it is gone and then B belongs to it *)
    rewrite Ex. destruct (decide (f y = f B)) as [|Hne]; [done|]. exfalso.
    destruct (lg_c2 _ _ _ _ _ _ _ HI B Hc) as (c & Ec1 & Cc).
    apply Hne. assert (forall z, f z = f y -> (z < B)%nat) as Hgy.
    { intros z Ez. destruct (decide (z < B)%nat); [done|]. exfalso. assert (z <> B) by congruence. apply Hh. exists z. split.
      - assert (z <> y) by lia. pose proof (f_in z y Ez ltac:(done)). lia.
      - rewrite <- Hcy. by apply (lg_cf _ _ _ _ _ _ _ HI). }
    pose proof (lg_gone _ _ _ _ _ _ _ HI y Hgy ltac:(congruence) c ltac:(congruence)). congruence.
  - destruct (lg_cnt _ _ _ _ _ _ _ HI) as [[HN0 Eu]|(HN0 & Hu & R & Hnd & Eu & HR1 & HR2 & HR3)].
    + left. split; [done|]. destruct H as [[_ H]|[(_ & _ & _ & ?)|[(_ & _ & Hh & H)|[(_ & _ & _ & H)|[(_ & _ & _ & _ & ?)|(_ & _ & _ & _ & H)]]]]]; try done; injection H as ->; try done.
      by rewrite (proj2 (Z.ltb_ge _ _)) by lia.
    + right. split; [done|].
      assert (Hsame : (f B <> f B \/ stays f B \/ cx B <> 0%nat \/ ex B = false) -> u' = u -> 0 <= u' /\ exists R, NoDup R /\ u' = N - Z.of_nat (length R) /\
        (forall r, r ∈ R -> (forall y, f y = f r -> (y < S B)%nat) /\ cx r = 0%nat /\ ex r = true) /\
        (forall r r', r ∈ R -> r' ∈ R -> f r = f r' -> r = r') /\
        (forall x, (forall y, f y = f x -> (y < S B)%nat) -> cx x = 0%nat -> ex x = true -> exists r, r ∈ R /\ f r = f x)).
      { intros Hcase ->. split; [done|]. exists R. split_and!; [done|done| |done|].
        - intros r Hr. destruct (HR1 r Hr) as (H1 & H2 & H3). split_and!; [|done|done]. intros y Ey. specialize (H1 y Ey). lia.
        - intros x Hx Hc Hex. apply HR3; [|done|done]. apply gone_S; [done|]. intros Ex. pose proof (gone_B x Ex Hx) as Hst.
          pose proof (lg_cf _ _ _ _ _ _ _ HI _ _ Ex) as Ec. destruct Hcase as [?|[?|[?|Hn]]]; [done|done|congruence|].
          assert (ex B = true); [|congruence]. apply (lg_e _ _ _ _ _ _ _ HI). apply (lg_f _ _ _ _ _ _ _ HI), C_sym, C_in in Ex as [->|?]; [|done]. by apply (lg_e _ _ _ _ _ _ _ HI). }
      destruct H as [[Hs H]|[(_ & _ & _ & ?)|[(_ & Hc & Hh & H)|[(_ & _ & Hex & H)|[(_ & _ & _ & _ & ?)|(Hst & Hc & Hex & Hu0 & H)]]]]]; try done; injection H as ->.
      * apply Hsame; [|done]. right. by left.
      * apply Hsame; [|done]. right. right. by left.
      * apply Hsame; [|done]. do 3 right. done.
      * rewrite (proj2 (Z.ltb_lt _ _)) by lia. split; [lia|]. pose proof (not_stays Hst) as Hns. exists (B :: R). split_and!.
        -- apply NoDup_cons. split; [|done]. intros HBR. destruct (HR1 B HBR) as [H1 _]. specialize (H1 B eq_refl). lia.
        -- cbn [length]. lia.
        -- intros r Hr. apply elem_of_cons in Hr as [->|Hr]; [split_and!; [|done|done]; intros y Ey; specialize (Hns y Ey); lia|].
           destruct (HR1 r Hr) as (H1 & H2 & H3). split_and!; [|done|done]. intros y Ey. specialize (H1 y Ey). lia.
        -- intros r r' Hr Hr' Err. apply elem_of_cons in Hr as [->|Hr], Hr' as [->|Hr']; [done| | |by apply HR2].
           ++ destruct (HR1 r' Hr') as [H1 _]. specialize (H1 B Err). lia.
           ++ destruct (HR1 r Hr) as [H1 _]. specialize (H1 B (eq_sym Err)). lia.
        -- intros x Hx Hcx Hexx. destruct (decide (f x = f B)) as [Ex|Ex]; [exists B; split; [set_solver|done]|].
           destruct (HR3 x (gone_S x Hx Ex) Hcx Hexx) as (r & Hr & Er). exists r. split; [set_solver|done].
Qed.

Lemma leave1_none : leave1 f cx ex B u None -> ~ good ch.
Proof.
  intros H (Ga & Gb & _). destruct H as [[_ ?]|[(Hst & Hc & Hh & _)|[(_ & _ & _ & ?)|[(_ & _ & _ & ?)|[(Hst & Hc & Hex & Hu & _)|(_ & _ & _ & _ & ?)]]]]]; try done.
  - destruct Hh as (y & Hy & Ey). destruct (lg_c2 _ _ _ _ _ _ _ HI B Hc) as (c & Ec & Cc). destruct (lg_c2 _ _ _ _ _ _ _ HI y ltac:(congruence)) as (d & Ed & Cd).
    assert (C ch n c d) as HC. { apply Ga; congruence. }
    assert (f d = f c) as Efd.
    { apply closed; [apply Hout; congruence| |done]. intros z Hz. apply (not_stays Hst). congruence. }
    pose proof (not_stays Hst y ltac:(congruence)). lia.
  - destruct (lg_cnt _ _ _ _ _ _ _ HI) as [[HN0 Eu]|(HN0 & Hu' & R & Hnd & Eu & HR1 & HR2 & HR3)]; [lia|].
    destruct (Gb HN0) as (R0 & Hnd0 & Hl0 & Hf0 & Hu0). pose proof (not_stays Hst) as Hns.
    assert (forall r, r ∈ B :: R -> (1 <= r <= m)%nat /\ (forall z, f z = f r -> (z <= B)%nat) /\ cx r = 0%nat /\ ex r = true) as HBR.
    { intros r Hr. apply elem_of_cons in Hr as [->|Hr]; [done|]. destruct (HR1 r Hr) as (H1 & H2 & H3). split_and!; [by apply ex_in|by apply ex_in| |done|done].
      intros z Hz. specialize (H1 z Hz). lia. }
    assert (length (B :: R) <= length R0)%nat as Hle; [|cbn [length] in Hle; lia].
    apply (inj_length (C ch n)).
    + apply NoDup_cons. split; [|done]. intros HBR'. destruct (HR1 B HBR') as [H1 _]. specialize (H1 B eq_refl). lia.
    + intros r Hr. destruct (HBR r Hr) as (K1 & K2 & K3 & K4). destruct (Hu0 r) as (r' & [Hr' Hc'] & _); [by apply cx_free|]. by exists r'.
    + intros r1 r2 r' Hr1 Hr2 H1 H2. destruct (HBR r1 Hr1) as (K1 & K2 & K3 & K4), (HBR r2 Hr2) as (L1 & L2 & L3 & L4).
      apply closed in H1; [|done|done]. apply closed in H2; [|done|done]. assert (f r1 = f r2) as E12 by congruence.
      apply elem_of_cons in Hr1 as [->|Hr1], Hr2 as [->|Hr2]; [done| | |by apply HR2].
      * destruct (HR1 r2 Hr2) as [H3 _]. specialize (H3 B E12). lia.
      * destruct (HR1 r1 Hr1) as [H3 _]. specialize (H3 B (eq_sym E12)). lia.
Qed.
End leave.

(** ** the end *)
Lemma Log_end ch u f cx ex : Log ch n (S m) u f cx ex -> good ch <-> u <= 0.
Proof.
  intros HI.
  assert (Hin : forall x y, f x = f y -> x <> y -> (x <= m)%nat).
  { intros x y Ef Hne. apply (lg_f _ _ _ _ _ _ _ HI), C_in in Ef as [?|[z Hz]]; [done|]. apply E_in in Hz as (a & e & Ha & He & Hx & _). pose proof (no_range _ _ HN _ _ He). lia. }
  assert (Hgone : forall x, (x <= m)%nat -> forall y, f y = f x -> (y < S m)%nat).
  { intros x Hx y Ey. destruct (decide (y = x)) as [->|]; [lia|]. pose proof (Hin y x Ey ltac:(done)). lia. }
  assert (Hfree : forall x, free ch x <-> cx x = 0%nat /\ ex x = true).
  { intros x. unfold free. rewrite (lg_e _ _ _ _ _ _ _ HI). split.
    - intros [He Hc]. split; [|done]. destruct (decide (cx x = 0%nat)) as [|Hn]; [done|]. exfalso. destruct (lg_c2 _ _ _ _ _ _ _ HI x Hn) as (y & Ey & Cy).
      apply Hn. rewrite <- Cy. apply Hc. by apply (lg_f _ _ _ _ _ _ _ HI).
    - intros [Hc He]. split; [done|]. intros y Hy. destruct (decide (col y = 0%nat)) as [|Hn]; [done|]. rewrite <- (lg_c1 _ _ _ _ _ _ _ HI y Hn), <- Hc. symmetry. by apply (lg_cf _ _ _ _ _ _ _ HI), (lg_f _ _ _ _ _ _ _ HI). }
  assert (Hexm : forall x, ex x = true -> (x <= m)%nat).
  { intros x [y Hy]%(lg_e _ _ _ _ _ _ _ HI). apply E_in in Hy as (a & e & Ha & He & Hx & _). pose proof (no_range _ _ HN _ _ He). lia. }
  split.
  - intros (_ & Gb & _). destruct (lg_cnt _ _ _ _ _ _ _ HI) as [[HN0 Eu]|(HN0 & Hu' & R & Hnd & Eu & HR1 & HR2 & HR3)]; [lia|].
    destruct (Gb HN0) as (R0 & Hnd0 & Hl0 & Hf0 & Hu0).
    assert (length R0 <= length R)%nat; [|lia]. apply (inj_length (C ch n)); [done| |].
    + intros r Hr. pose proof (Hf0 r Hr) as Hfr. apply Hfree in Hfr as [Hc He]. destruct (HR3 r (Hgone r (Hexm r He)) Hc He) as (r' & Hr' & Er). exists r'. split; [done|]. by apply (lg_f _ _ _ _ _ _ _ HI).
    + intros r1 r2 r' Hr1 Hr2 H1 H2. destruct (Hu0 r1 (Hf0 r1 Hr1)) as (r & _ & Hun). rewrite (Hun r1 Hr1 (rtc_refl _ _)). symmetry. apply Hun; [done|]. etrans; [exact H1|by apply C_sym].
  - intros Hu. split_and!.
    + intros x y Hx Hy. rewrite <- (lg_f _ _ _ _ _ _ _ HI). split.
      * intros Ef. rewrite <- (lg_c1 _ _ _ _ _ _ _ HI x Hx), <- (lg_c1 _ _ _ _ _ _ _ HI y Hy). by apply (lg_cf _ _ _ _ _ _ _ HI).
      * intros Ec. symmetry. apply (lg_gone _ _ _ _ _ _ _ HI x); [apply Hgone; by apply Hout| |]; rewrite (lg_c1 _ _ _ _ _ _ _ HI x Hx); done.
    + intros HN0. destruct (lg_cnt _ _ _ _ _ _ _ HI) as [[? _]|(_ & Hu' & R & Hnd & Eu & HR1 & HR2 & HR3)]; [lia|].
      exists R. split_and!; [done|lia| |].
      * intros r Hr. apply Hfree. by destruct (HR1 r Hr).
      * intros x Hx. apply Hfree in Hx as [Hc He]. destruct (HR3 x (Hgone x (Hexm x He)) Hc He) as (r & Hr & Er). exists r. split; [split; [done|by apply (lg_f _ _ _ _ _ _ _ HI)]|].
        intros r' Hr' Hc'. apply (lg_f _ _ _ _ _ _ _ HI) in Hc'. apply HR2; [done|done|]. congruence.
    + intros Hno a e He Hc. apply (lg_loop _ _ _ _ _ _ _ HI Hno a e); [|done|done]. by apply lookup_lt_Some in He.
Qed.
End logic.
