(** Reference counts are the numbers of owners. *)
From Verif Require Import Base M_Table M_Handler S_Handler.
From stdpp Require Import gmap.

Definition inc (p : nat) (F : nat -> nat) (q : nat) : nat := F q + (if q =? p then 1 else 0).
Definition Hinv (h : heap) (own : nat -> nat) : Prop :=
  forall p, (N.of_nat (own p) < 2 ^ 32)%N /\ match h !! p with Some o => refs o = N.of_nat (own p) /\ 0 < own p | None => own p = 0 end.
Definition ent (h : heap) (p : nat) : option table := entity <$> h !! p.

Lemma Hinv_ext h F G : (forall q, F q = G q) -> Hinv h F -> Hinv h G.
Proof. intros E H p. rewrite <- E. apply H. Qed.
Lemma inc_same p F : inc p F p = F p + 1.
Proof. unfold inc. by rewrite Nat.eqb_refl. Qed.
Lemma inc_ne p F q : q <> p -> inc p F q = F q.
Proof. intros. unfold inc. destruct (Nat.eqb_spec q p); [done|lia]. Qed.
Lemma inc_swap p q F x : inc p (inc q F) x = inc q (inc p F) x.
Proof. unfold inc. lia. Qed.

Lemma Hinv_load h own p : Hinv h own -> 0 < own p -> exists o, h !! p = Some o /\ refs o = N.of_nat (own p) /\ load h p = Done o.
Proof.
  intros H Hp. destruct (H p) as [_ Hq]. unfold load. destruct (h !! p) as [o|]; [|lia]. exists o. tauto.
Qed.
Lemma pow32 : (2 ^ 32 = 4294967296)%N. Proof. done. Qed.
Lemma u32_small n : (n < 2 ^ 32)%N -> u32 n = n.
Proof. intros. unfold u32. by apply N.mod_small. Qed.
Lemma ref_spec h F p : Hinv h F -> 0 < F p -> (N.of_nat (F p) + 1 < 2 ^ 32)%N ->
  exists h', h_ref h p = Done h' /\ Hinv h' (inc p F) /\ forall q, ent h' q = ent h q.
Proof.
  intros H Hp Hb. destruct (Hinv_load _ _ _ H Hp) as (o & Ho & Hr & Hl). unfold h_ref. rewrite Hl. cbn [obnd].
  rewrite u32_small by (rewrite Hr; exact Hb).
  destruct (N.eqb_spec (refs o + 1) 0) as [E|E]; [lia|].
  eexists. split; [reflexivity|]. split.
  - intros q. destruct (decide (q = p)) as [->|Hq].
    + rewrite inc_same, lookup_insert. simpl. rewrite Hr. rewrite Nat2N.inj_add. split; [exact Hb|lia].
    + rewrite inc_ne by done. rewrite lookup_insert_ne by done. apply H.
  - intros q. unfold ent. destruct (decide (q = p)) as [->|Hq].
    + rewrite lookup_insert, Ho. done.
    + by rewrite lookup_insert_ne.
Qed.

Lemma ref_over h F p : Hinv h F -> 0 < F p -> ~ (N.of_nat (F p) + 1 < 2 ^ 32)%N -> h_ref h p = Thrown.
Proof.
  intros H Hp Hb. destruct (Hinv_load _ _ _ H Hp) as (o & Ho & Hr & Hl). unfold h_ref. rewrite Hl. cbn [obnd].
  assert (refs o + 1 = 2 ^ 32)%N as -> by (destruct (H p) as [Hlt _]; lia). done.
Qed.
Lemma deref_spec h F p : Hinv h (inc p F) ->
  exists h', h_deref h p = Done h' /\ Hinv h' F /\ forall q, 0 < F q -> ent h' q = ent h q.
Proof.
  intros H. destruct (Hinv_load h (inc p F) p H) as (o & Ho & Hr & Hl). { rewrite inc_same. lia. }
  destruct (H p) as [Hb _]. rewrite inc_same in Hb, Hr.
  unfold h_deref. rewrite Hl. cbn [obnd].
  assert (u32 (refs o + (2 ^ 32 - 1)) = N.of_nat (F p)) as ->.
  { rewrite Hr. rewrite Nat2N.inj_add in *. unfold u32.
    replace (N.of_nat (F p) + N.of_nat 1 + (2 ^ 32 - 1))%N with (N.of_nat (F p) + 1 * 2 ^ 32)%N by lia.
    rewrite N.mod_add by done. apply N.mod_small. lia. }
  destruct (N.eqb_spec (N.of_nat (F p)) 0) as [E|E].
  - eexists. split; [reflexivity|]. split.
    + intros q. destruct (decide (q = p)) as [->|Hq].
      * rewrite lookup_delete. lia.
      * rewrite lookup_delete_ne by done. specialize (H q). by rewrite inc_ne in H.
    + intros q Hq. unfold ent. rewrite lookup_delete_ne; [done|]. intros <-. lia.
  - eexists. split; [reflexivity|]. split.
    + intros q. destruct (decide (q = p)) as [->|Hq].
      * rewrite lookup_insert. simpl. lia.
      * rewrite lookup_insert_ne by done. specialize (H q). by rewrite inc_ne in H.
    + intros q _. unfold ent. destruct (decide (q = p)) as [->|Hq].
      * by rewrite lookup_insert, Ho.
      * by rewrite lookup_insert_ne.
Qed.

Lemma write_spec h F p t : Hinv h F -> 0 < F p ->
  exists h', h_write h p t = Done h' /\ Hinv h' F /\ ent h' p = Some t /\ forall q, q <> p -> ent h' q = ent h q.
Proof.
  intros H Hp. destruct (Hinv_load _ _ _ H Hp) as (o & Ho & Hr & Hl). unfold h_write. rewrite Hl. cbn [obnd].
  eexists. split; [reflexivity|]. split_and!.
  - intros q. destruct (decide (q = p)) as [->|Hq].
    + rewrite lookup_insert. simpl. specialize (H p). rewrite Ho in H. done.
    + rewrite lookup_insert_ne by done. apply H.
  - unfold ent. by rewrite lookup_insert.
  - intros q Hq. unfold ent. by rewrite lookup_insert_ne.
Qed.

Section with_alloc.
Context (a : nat) (alloc : heap -> nat) (Halloc : forall h, h !! alloc h = None).

Lemma alloc_spec h F t : Hinv h F ->
  exists h' p, h_alloc alloc h t = (h', p) /\ Hinv h' (inc p F) /\ F p = 0 /\ ent h' p = Some t /\
  forall q, q <> p -> ent h' q = ent h q.
Proof.
  intros H. unfold h_alloc. do 2 eexists. split; [reflexivity|]. set (p := alloc h).
  assert (F p = 0) as E. { specialize (H p). unfold p in H at 2. rewrite Halloc in H. tauto. }
  split_and!; [|done| |].
  - intros q. destruct (decide (q = p)) as [->|Hq].
    + rewrite lookup_insert, inc_same, E. simpl. split; [by vm_compute|split; [done|lia]].
    + rewrite lookup_insert_ne, inc_ne by done. apply H.
  - unfold ent. by rewrite lookup_insert.
  - intros q Hq. unfold ent. by rewrite lookup_insert_ne.
Qed.

Lemma assign_spec h F p q : Hinv h (inc p F) -> 0 < F q -> (N.of_nat (F q) + 1 < 2 ^ 32)%N ->
  exists h', h_assign h p q = Done (h', q) /\ Hinv h' (inc q F) /\ forall x, 0 < F x -> ent h' x = ent h x.
Proof.
  intros H Hq Hb. destruct (deref_spec _ _ _ H) as (h1 & E1 & H1 & R1).
  destruct (ref_spec _ _ _ H1 Hq Hb) as (h2 & E2 & H2 & R2). unfold h_assign. rewrite E1. cbn [obnd]. rewrite E2. cbn [obnd].
  eexists. split; [reflexivity|]. split; [done|]. intros x Hx. rewrite R2. by apply R1.
Qed.
Lemma copy_spec h F p : Hinv h F -> 0 < F p -> (N.of_nat (F p) + 1 < 2 ^ 32)%N ->
  exists h', h_copy h p = Done (h', p) /\ Hinv h' (inc p F) /\ forall x, ent h' x = ent h x.
Proof.
  intros H Hq Hb. destruct (ref_spec _ _ _ H Hq Hb) as (h2 & E2 & H2 & R2). unfold h_copy. rewrite E2. cbn [obnd]. eauto.
Qed.

Lemma assign_over h F p q : Hinv h (inc p F) -> 0 < F q -> ~ (N.of_nat (F q) + 1 < 2 ^ 32)%N -> h_assign h p q = Thrown.
Proof.
  intros H Hq Hb. destruct (deref_spec _ _ _ H) as (h1 & E1 & H1 & R1). unfold h_assign. rewrite E1. cbn [obnd]. by rewrite (ref_over _ _ _ H1 Hq Hb).
Qed.
Lemma copy_over h F p : Hinv h F -> 0 < F p -> ~ (N.of_nat (F p) + 1 < 2 ^ 32)%N -> h_copy h p = Thrown.
Proof. intros H Hq Hb. unfold h_copy. by rewrite (ref_over _ _ _ H Hq Hb). Qed.

Lemma private_spec h F p : Hinv h (inc p F) ->
  exists h' p', h_private alloc h p = Done (h', p') /\ Hinv h' (inc p' F) /\ F p' = 0 /\ ent h' p' = ent h p /\
  forall q, 0 < F q -> ent h' q = ent h q.
Proof.
  intros H. destruct (Hinv_load h (inc p F) p H) as (o & Ho & Hr & Hl). { rewrite inc_same. lia. }
  rewrite inc_same in Hr. unfold h_private. rewrite Hl. cbn [obnd].
  destruct (N.leb_spec 2 (refs o)) as [E|E].
  - destruct (deref_spec _ _ _ H) as (h1 & E1 & H1 & R1). rewrite E1. cbn [obnd].
    assert (0 < F p) as Hp by lia. destruct (Hinv_load _ _ _ H1 Hp) as (o1 & Ho1 & Hr1 & Hl1). rewrite Hl1. cbn [obnd].
    destruct (alloc_spec h1 F (entity o1) H1) as (h2 & p2 & -> & H2 & Z2 & T2 & R2).
    do 2 eexists. split; [reflexivity|]. split_and!; try done.
    + rewrite T2. rewrite <- (R1 p Hp). unfold ent. by rewrite Ho1.
    + intros q Hq. rewrite R2; [by apply R1|]. intros ->. lia.
  - do 2 eexists. split; [reflexivity|]. split_and!; try done. lia.
Qed.

Lemma init_spec h F p n : Hinv h (inc p F) ->
  exists h' p', h_init a alloc h p n = Done (h', p') /\ Hinv h' (inc p' F) /\ F p' = 0 /\ ent h' p' = Some (new_table a n) /\
  forall q, 0 < F q -> ent h' q = ent h q.
Proof.
  intros H. destruct (Hinv_load h (inc p F) p H) as (o & Ho & Hr & Hl). { rewrite inc_same. lia. }
  rewrite inc_same in Hr. unfold h_init. rewrite Hl. cbn [obnd].
  destruct (N.eqb_spec (refs o) 1) as [E|E].
  - do 2 eexists. split; [reflexivity|]. assert (F p = 0) as Z by lia. split_and!; try done.
    + intros q. destruct (decide (q = p)) as [->|Hq].
      * rewrite lookup_insert, inc_same, Z. simpl. split; [by vm_compute|split; [done|lia]].
      * rewrite lookup_insert_ne by done. apply H.
    + unfold ent. by rewrite lookup_insert.
    + intros q Hq. unfold ent. rewrite lookup_insert_ne; [done|]. intros <-. lia.
  - destruct (deref_spec _ _ _ H) as (h1 & E1 & H1 & R1). rewrite E1. cbn [obnd]. unfold h_new.
    destruct (alloc_spec h1 F (new_table a n) H1) as (h2 & p2 & -> & H2 & Z2 & T2 & R2).
    do 2 eexists. split; [reflexivity|]. split_and!; try done.
    intros q Hq. rewrite R2; [by apply R1|]. intros ->. lia.
Qed.

(** releasing levels: nothing that another owner sees changes *)
Lemma release_spec lv : forall h F p t, Hinv h (inc p F) -> ent h p = Some t -> Forall (fun i => i < length t) lv ->
  exists h', h_release h p lv = Done h' /\ Hinv h' (inc p F) /\ forall q, 0 < F q -> ent h' q = ent h q.
Proof.
  induction lv as [|i lv IH]; intros h F p t H Ht Hlv; simpl.
  - exists h. done.
  - apply Forall_cons in Hlv. destruct Hlv as [Hi Hlv].
    destruct (Hinv_load h (inc p F) p H) as (o & Ho & Hr & Hl). { rewrite inc_same. lia. }
    unfold h_derefLevel. rewrite Hl. cbn [obnd]. rewrite inc_same in Hr.
    unfold ent in Ht. rewrite Ho in Ht. simpl in Ht. injection Ht as <-.
    destruct (N.eqb_spec (refs o) 1) as [E|E].
    + unfold set_row. destruct (lookup_lt_is_Some_2 _ _ Hi) as [r ->]. cbn.
      destruct (IH (<[p := Obj 1 (<[i := []]> (entity o))]> h) F p (<[i := []]> (entity o))) as (h' & -> & H' & R').
      * intros q. destruct (decide (q = p)) as [->|Hq].
        -- rewrite lookup_insert. simpl. specialize (H p). rewrite inc_same in *. rewrite Ho in H. split; [tauto|lia].
        -- rewrite lookup_insert_ne by done. apply H.
      * unfold ent. by rewrite lookup_insert.
      * by rewrite insert_length.
      * exists h'. split; [done|]. split; [done|]. intros q Hq. rewrite R' by done. unfold ent.
        rewrite lookup_insert_ne; [done|]. intros <-. lia.
    + cbn [obnd]. destruct (IH h F p (entity o) H) as (h' & -> & H' & R'); [unfold ent; by rewrite Ho|done|]. eauto.
Qed.

(** ** Owners among the variables *)
Definition cnt (vs : gmap nat (nat * nid)) (p : nat) : nat :=
  length (filter (fun xv : nat * (nat * nid) => xv.2.1 = p) (map_to_list vs)).
Lemma cnt_insert vs x p r q : vs !! x = None -> cnt (<[x := (p, r)]> vs) q = inc p (cnt vs) q.
Proof.
  intros H. unfold cnt, inc. rewrite map_to_list_insert by done. rewrite filter_cons. simpl.
  destruct (decide (p = q)) as [->|Hq]; simpl.
  - rewrite Nat.eqb_refl. lia.
  - destruct (Nat.eqb_spec q p); [done|lia].
Qed.
Lemma cnt_delete vs x p r q : vs !! x = Some (p, r) -> cnt vs q = inc p (cnt (delete x vs)) q.
Proof. intros H. rewrite <- (insert_delete vs x (p, r) H) at 1. apply cnt_insert. by rewrite lookup_delete. Qed.
Lemma cnt_pos vs x p r : vs !! x = Some (p, r) -> 0 < cnt vs p.
Proof. intros H. rewrite (cnt_delete _ _ _ _ _ H), inc_same. lia. Qed.
Lemma cnt_owned vs p : 0 < cnt vs p -> exists x r, vs !! x = Some (p, r).
Proof.
  unfold cnt. intros H. destruct (filter (fun xv : nat * (nat * nid) => xv.2.1 = p) (map_to_list vs)) as [|[x [q r]] l] eqn:E; [simpl in H; lia|].
  assert ((x, (q, r)) ∈ filter (fun xv : nat * (nat * nid) => xv.2.1 = p) (map_to_list vs)) as Hin by (rewrite E; left).
  apply elem_of_list_filter in Hin. destruct Hin as [Hq Hin]. simpl in Hq. subst q. apply elem_of_map_to_list in Hin. eauto.
Qed.
Lemma cnt_size vs p : cnt vs p <= size vs.
Proof.
  unfold cnt. transitivity (length (map_to_list vs)); [|done].
  induction (map_to_list vs) as [|y l IH]; [done|]. rewrite filter_cons. destruct (decide _); simpl; lia.
Qed.

Definition winv (w : world) (m : values) : Prop :=
  Hinv (hp w) (cnt (vars w)) /\
  forall x, match vars w !! x with
            | Some (p, r) => exists t, ent (hp w) p = Some t /\ m !! x = Some (t, r)
            | None => m !! x = None
            end.

Lemma winv_dom w m : winv w m -> size m = size (vars w).
Proof.
  intros [_ H]. rewrite <- !size_dom. f_equal. apply set_eq. intros x. rewrite !elem_of_dom. specialize (H x).
  destruct (vars w !! x) as [[p r]|].
  - destruct H as (t & _ & ->). split; eauto.
  - rewrite H. split; by intros [].
Qed.
Lemma winv_get w m x t r : winv w m -> m !! x = Some (t, r) ->
  exists p, vars w !! x = Some (p, r) /\ ent (hp w) p = Some t /\ Hinv (hp w) (inc p (cnt (delete x (vars w)))).
Proof.
  intros [HI H] Hx. pose proof (H x) as Hv. destruct (vars w !! x) as [[p r']|] eqn:E.
  - destruct Hv as (t' & Ht & Hm). rewrite Hx in Hm. injection Hm as <- <-. exists p. split_and!; [done..|].
    eapply Hinv_ext; [|exact HI]. intros q. by apply (cnt_delete _ _ _ r).
  - congruence.
Qed.
Lemma winv_none w m x : winv w m -> m !! x = None -> vars w !! x = None.
Proof.
  intros [_ H] Hx. specialize (H x). destruct (vars w !! x) as [[p r]|]; [|done]. destruct H as (t & _ & E). congruence.
Qed.
(** the variable x is given a new pointer; everything the others own is kept *)
Lemma winv_set w m x h' p' r' t' : winv w m -> 
  Hinv h' (inc p' (cnt (delete x (vars w)))) -> ent h' p' = Some t' ->
  (forall q, 0 < cnt (delete x (vars w)) q -> ent h' q = ent (hp w) q) ->
  winv (World h' (<[x := (p', r')]> (vars w))) (<[x := (t', r')]> m).
Proof.
  intros [_ H] H' Ht R. split; simpl.
  - eapply Hinv_ext; [|exact H']. intros q. rewrite <- insert_delete_insert. symmetry. apply cnt_insert. by rewrite lookup_delete.
  - intros y. destruct (decide (y = x)) as [->|Hy].
    + rewrite !lookup_insert. eauto.
    + rewrite !lookup_insert_ne by done. specialize (H y). destruct (vars w !! y) as [[q r]|] eqn:E; [|done].
      destruct H as (t & E1 & E2). exists t. split; [|done]. rewrite R; [done|].
      apply (cnt_pos _ y q r). by rewrite lookup_delete_ne.
Qed.
Lemma winv_del w m x h' : winv w m -> Hinv h' (cnt (delete x (vars w))) ->
  (forall q, 0 < cnt (delete x (vars w)) q -> ent h' q = ent (hp w) q) ->
  winv (World h' (delete x (vars w))) (delete x m).
Proof.
  intros [_ H] H' R. split; simpl; [done|].
  intros y. destruct (decide (y = x)) as [->|Hy].
  - by rewrite !lookup_delete.
  - rewrite !lookup_delete_ne by done. specialize (H y). destruct (vars w !! y) as [[q r]|] eqn:E; [|done].
    destruct H as (t & E1 & E2). exists t. split; [|done]. rewrite R; [done|].
    apply (cnt_pos _ y q r). by rewrite lookup_delete_ne.
Qed.

Lemma del_none (vs : gmap nat (nat * nid)) x : vs !! x = None -> delete x vs = vs.
Proof. apply delete_notin. Qed.

Lemma exec_spec w m c m' : winv w m -> release_ok m c -> v_exec a m c = Some m' ->
  (exec a alloc w c = Thrown /\ 2 ^ 32 <= N.of_nat (size m) + 1)%N \/ exists w', exec a alloc w c = Done w' /\ winv w' m'.
Proof.
  intros HW HR HE. rewrite (winv_dom _ _ HW). pose proof HW as [HI HV].
  assert (forall x q, cnt (delete x (vars w)) q <= cnt (vars w) q) as HD.
  { intros x q. destruct (vars w !! x) as [[p r]|] eqn:E.
    - rewrite (cnt_delete (vars w) x p r q E). unfold inc. lia.
    - by rewrite del_none. }
  destruct c as [x rows f|x y|x y|x|x f|x y lv f|x f|x rows|x r]; simpl in HE.
  - (* Construct *) right.
    destruct (m !! x) eqn:Hx; [done|]. destruct (f (new_table a rows)) as [[t r]|] eqn:Hf; [|done]. simpl in HE. injection HE as <-.
    pose proof (winv_none _ _ _ HW Hx) as Hn.
    unfold exec, h_new. destruct (alloc_spec _ _ (new_table a rows) HI) as (h1 & p1 & -> & H1 & Z1 & T1 & R1).
    destruct (private_spec _ _ _ H1) as (h2 & p2 & -> & H2 & Z2 & T2 & R2). cbn [obnd].
    destruct (Hinv_load _ _ p2 H2) as (o & Ho & _ & ->); [rewrite inc_same; lia|]. cbn [obnd].
    assert (entity o = new_table a rows) as ->. { rewrite T1 in T2. unfold ent in T2. rewrite Ho in T2. by injection T2. }
    rewrite Hf. cbn [odef obnd].
    destruct (write_spec _ _ p2 t H2) as (h3 & -> & H3 & T3 & R3); [rewrite inc_same; lia|]. cbn [obnd].
    eexists. split; [reflexivity|]. apply winv_set; [done| |done|].
    + by rewrite del_none.
    + rewrite del_none by done. intros q Hq. rewrite R3 by (intros ->; lia). rewrite R2 by done. apply R1. intros ->. lia.
  - (* Copy *)
    destruct (m !! x) eqn:Hx; [done|]. destruct (m !! y) as [[t r]|] eqn:Hy; [|done]. simpl in HE. injection HE as <-.
    pose proof (winv_none _ _ _ HW Hx) as Hn.
    destruct (winv_get _ _ _ _ _ HW Hy) as (p & Ep & Et & _). unfold exec, var. rewrite Ep. cbn [odef obnd].
    assert (0 < cnt (vars w) p) as Hp by by apply (cnt_pos _ y p r).
    destruct (decide (N.of_nat (cnt (vars w) p) + 1 < 2 ^ 32)%N) as [HB|HB].
    2:{ left. rewrite (copy_over _ _ _ HI Hp HB). split; [done|]. pose proof (cnt_size (vars w) p). lia. }
    right. destruct (copy_spec _ _ _ HI Hp HB) as (h1 & -> & H1 & R1). cbn [obnd].
    eexists. split; [reflexivity|]. apply winv_set; [done| | |].
    + by rewrite del_none.
    + by rewrite R1.
    + intros q _. apply R1.
  - (* Assign *)
    destruct (Nat.eqb_spec x y) as [|Hne]; [done|]. destruct (m !! x) as [[t0 r0]|] eqn:Hx; [|done].
    destruct (m !! y) as [[t r]|] eqn:Hy; [|done]. simpl in HE. injection HE as <-.
    destruct (winv_get _ _ _ _ _ HW Hx) as (p & Ep & _ & Hp). destruct (winv_get _ _ _ _ _ HW Hy) as (q & Eq & Etq & _).
    unfold exec, var. rewrite Ep, Eq. cbn [odef obnd].
    assert (0 < cnt (delete x (vars w)) q) as Hq. { apply (cnt_pos _ y q r). by rewrite lookup_delete_ne. }
    destruct (decide (N.of_nat (cnt (delete x (vars w)) q) + 1 < 2 ^ 32)%N) as [HB|HB].
    2:{ left. rewrite (assign_over _ _ _ _ Hp Hq HB). split; [done|]. pose proof (cnt_size (vars w) q). specialize (HD x q). lia. }
    right. destruct (assign_spec _ _ _ _ Hp Hq HB) as (h1 & -> & H1 & R1). cbn [obnd].
    eexists. split; [reflexivity|]. apply winv_set; [done..| |done]. by rewrite R1.
  - (* Destroy *) right.
    destruct (m !! x) as [[t0 r0]|] eqn:Hx; [|done]. simpl in HE. injection HE as <-.
    destruct (winv_get _ _ _ _ _ HW Hx) as (p & Ep & _ & Hp). unfold exec, var. rewrite Ep. cbn [odef obnd].
    unfold h_destroy. destruct (deref_spec _ _ _ Hp) as (h1 & -> & H1 & R1). cbn [obnd].
    eexists. split; [reflexivity|]. by apply winv_del.
  - (* Reduce *) right.
    destruct (m !! x) as [[t0 r0]|] eqn:Hx; [|done]. simpl in HE. destruct (f t0 r0) as [[[tin tout] r']|] eqn:Hf; [|done]. simpl in HE. injection HE as <-.
    destruct (winv_get _ _ _ _ _ HW Hx) as (p & Ep & Et & Hp). unfold exec, var. rewrite Ep. cbn [odef obnd].
    set (F := cnt (delete x (vars w))) in *.
    destruct (private_spec _ _ _ Hp) as (h1 & inp & -> & H1 & Z1 & T1 & R1). cbn [obnd].
    destruct (copy_spec _ _ inp H1) as (h2 & -> & H2 & R2). { rewrite inc_same. lia. } { rewrite inc_same, Z1. by vm_compute. } cbn [obnd].
    destruct (Hinv_load _ _ inp H2) as (oi & Hoi & _ & ->); [rewrite inc_same; lia|]. cbn [obnd]. unfold h_new.
    destruct (alloc_spec _ _ (new_table a (length (entity oi))) H2) as (h3 & new & -> & H3 & Z3 & T3 & R3).
    destruct (private_spec _ _ _ H3) as (h4 & outp & -> & H4 & Z4 & T4 & R4). cbn [obnd].
    assert (outp <> inp) as Hoi_ne. { intros ->. rewrite inc_same in Z4. lia. }
    assert (new <> inp) as Hni_ne. { intros ->. rewrite inc_same in Z3. lia. }
    assert (F outp = 0) as Zo. { rewrite !inc_ne in Z4 by done. done. }
    assert (Hinv h4 (inc inp (inc outp (inc inp F)))) as H4'. { eapply Hinv_ext; [|exact H4]. intros q. apply inc_swap. }
    destruct (assign_spec _ _ inp outp H4') as (h5 & -> & H5 & R5). { rewrite inc_same. lia. }
    { rewrite inc_same, inc_ne, Zo by done. by vm_compute. } cbn [obnd].
    assert (0 < inc outp (inc outp (inc inp F)) inp) as Hpi. { rewrite !inc_ne, inc_same by done. lia. }
    destruct (Hinv_load _ _ inp H5 Hpi) as (oi5 & Hoi5 & _ & ->). cbn [obnd].
    assert (entity oi5 = t0) as ->.
    { assert (ent h5 inp = Some t0) as X.
      { rewrite R5 by (rewrite inc_ne, inc_same by done; lia). rewrite R4 by (rewrite inc_same; lia).
        rewrite R3 by done. rewrite R2, T1. done. }
      unfold ent in X. rewrite Hoi5 in X. by injection X. }
    rewrite Hf. cbn [odef obnd].
    destruct (write_spec _ _ inp tin H5 Hpi) as (h6 & -> & H6 & T6 & R6). cbn [obnd].
    destruct (write_spec _ _ outp tout H6) as (h7 & -> & H7 & T7 & R7); [rewrite inc_same; lia|]. cbn [obnd]. unfold h_destroy.
    destruct (deref_spec _ _ _ H7) as (h8 & -> & H8 & R8). cbn [obnd].
    assert (Hinv h8 (inc inp (inc outp F))) as H8'. { eapply Hinv_ext; [|exact H8]. intros q. apply inc_swap. }
    destruct (deref_spec _ _ _ H8') as (h9 & -> & H9 & R9). cbn [obnd].
    eexists. split; [reflexivity|]. apply winv_set; [done..| |].
    + rewrite R9 by (rewrite inc_same; lia). rewrite R8 by (rewrite inc_same; lia). done.
    + fold F. intros q Hq. assert (q <> inp) by (intros ->; lia). assert (q <> outp) by (intros ->; lia).
      assert (q <> new). { intros ->. rewrite !inc_ne in Z3 by done. lia. }
      rewrite R9, R8, R7, R6, R5, R4, R3, R2 by (try done; unfold inc; lia). by apply R1.
  - (* Subset *)
    destruct (m !! x) as [[t0 r0]|] eqn:Hx; [|done]. simpl in HE.
    destruct (HR _ _ Hx) as [Hff Hlv]. 
    destruct (winv_get _ _ _ _ _ HW Hx) as (p & Ep & Et & Hp). unfold exec, var. rewrite Ep. cbn [odef obnd]. unfold h_new.
    set (F := cnt (delete x (vars w))) in *.
    destruct (alloc_spec _ _ (new_table a 1) Hp) as (h1 & tmp & -> & H1 & Z1 & T1 & R1).
    assert (tmp <> p) as Htp. { intros ->. rewrite inc_same in Z1. lia. }
    rewrite inc_ne in Z1 by done.
    (* the copy held by the subsetter *)
    assert ((match y with
       | None => Done (h1, None)
       | Some y0 => run (q, _) := odef (vars w !! y0) in run (h', q') := h_copy h1 q in Done (h', Some q')
       end = Thrown /\ 2 ^ 32 <= N.of_nat (size (vars w)) + 1)%N \/ exists h2 spo (G : nat -> nat),
      (match y with
       | None => Done (h1, None)
       | Some y0 => run (q, _) := odef (vars w !! y0) in run (h', q') := h_copy h1 q in Done (h', Some q')
       end) = Done (h2, spo) /\ Hinv h2 (inc tmp (inc p G)) /\ (forall q, ent h2 q = ent h1 q) /\
      (forall q, F q <= G q) /\
      (forall q, G q = match spo with None => F q | Some s => inc s F q end) /\ G tmp = 0) as [[Esp Hs]|(h2 & spo & G & Esp & H2 & R2 & GF & GE & G0)].
    { destruct y as [y0|].
      - destruct (m !! y0) as [[ty ry]|] eqn:Hy; [|done].
        destruct (winv_get _ _ _ _ _ HW Hy) as (q & Eq & _ & _). rewrite Eq. cbn [odef obnd].
        pose proof (cnt_pos _ _ _ _ Eq) as Hq. pose proof (cnt_size (vars w) q) as Hcs. rewrite (cnt_delete _ _ _ _ q Ep) in Hq, Hcs. fold F in Hq, Hcs.
        assert (q <> tmp) as Hqt. { intros ->. rewrite inc_ne in Hq by done. lia. }
        assert (0 < inc tmp (inc p F) q) as Hq' by (unfold inc in *; lia).
        destruct (decide (N.of_nat (inc tmp (inc p F) q) + 1 < 2 ^ 32)%N) as [HB|HB].
        2:{ left. rewrite (copy_over _ _ _ H1 Hq' HB). split; [done|]. rewrite inc_ne in HB by done. lia. }
        right. destruct (copy_spec h1 (inc tmp (inc p F)) q H1 Hq' HB) as (h2 & -> & H2 & R2).
        cbn [obnd]. eexists h2, (Some q), (inc q F). split; [reflexivity|]. split_and!; try done.
        + eapply Hinv_ext; [|exact H2]. intros z. unfold inc. lia.
        + intros z. unfold inc. lia.
        + by rewrite inc_ne.
      - right. eexists h1, None, F. split; [reflexivity|]. by split_and!. }
    { left. rewrite Esp. done. }
    right.
    rewrite Esp. cbn [obnd]. clear Esp.
    assert (exists t' r', f true t0 r0 = Some (t', r') /\ m' = <[x := (t', r')]> m) as (t' & r' & Hf & ->).
    { destruct (f true t0 r0) as [[t' r']|].
      - exists t', r'. split; [done|]. destruct y as [y0|]; [destruct (m !! y0)|]; simpl in HE; congruence.
      - destruct y as [y0|]; [destruct (m !! y0)|]; simpl in HE; congruence. }
    destruct (private_spec _ _ _ H2) as (h3 & outp & -> & H3 & Z3 & T3 & R3). cbn [obnd].
    assert (outp <> p) as Hop. { intros ->. rewrite inc_same in Z3. lia. }
    assert (0 < inc p G p) as Hpp by (rewrite inc_same; lia).
    assert (ent h3 p = Some t0) as Etp. { rewrite R3 by done. rewrite R2. by rewrite R1. }
    destruct (Hinv_load _ _ p H3) as (oi & Hoi & _ & ->); [unfold inc in *; lia|]. cbn [obnd].
    assert (entity oi = t0) as ->. { unfold ent in Etp. rewrite Hoi in Etp. by injection Etp. }
    assert (f (2 <=? refs oi)%N t0 r0 = Some (t', r')) as ->. { destruct (2 <=? refs oi)%N; congruence. }
    cbn [odef obnd].
    destruct (write_spec _ _ outp t' H3) as (h4 & -> & H4 & T4 & R4); [rewrite inc_same; lia|]. cbn [obnd].
    assert (Hinv h4 (inc p (inc outp G))) as H4'. { eapply Hinv_ext; [|exact H4]. intros q. apply inc_swap. }
    destruct (release_spec lv _ _ _ t0 H4') as (h5 & -> & H5 & R5); [by rewrite R4 by done|done|]. cbn [obnd].
    assert (G outp = 0) as Zo. { by rewrite inc_ne in Z3. }
    destruct (assign_spec _ _ _ outp H5) as (h6 & -> & H6 & R6). { rewrite inc_same. lia. }
    { rewrite inc_same, Zo. by vm_compute. } cbn [obnd].
    assert (exists h7, (match spo with None => Done h6 | Some q => h_destroy h6 q end) = Done h7 /\
      Hinv h7 (inc outp (inc outp F)) /\ forall q, 0 < inc outp (inc outp F) q -> ent h7 q = ent h6 q) as (h7 & -> & H7 & R7).
    { destruct spo as [s|].
      - unfold h_destroy. assert (Hinv h6 (inc s (inc outp (inc outp F)))) as H6'.
        { eapply Hinv_ext; [|exact H6]. intros q. specialize (GE q). unfold inc in *. lia. }
        destruct (deref_spec _ _ _ H6') as (h7 & -> & H7 & R7). eauto.
      - exists h6. split; [done|]. split; [|done]. eapply Hinv_ext; [|exact H6]. intros q. specialize (GE q). unfold inc in *. lia. }
    cbn [obnd]. unfold h_destroy.
    destruct (deref_spec _ _ _ H7) as (h8 & -> & H8 & R8). cbn [obnd].
    eexists. split; [reflexivity|]. apply winv_set; [done..| |].
    + rewrite R8 by (rewrite inc_same; lia). rewrite R7 by (rewrite inc_same; lia). rewrite R6 by (rewrite inc_same; lia).
      rewrite R5 by (rewrite inc_same; lia). done.
    + fold F. intros q Hq. pose proof (GF q). assert (q <> outp) by (intros ->; lia). assert (q <> tmp) by (intros ->; lia).
      rewrite R8, R7, R6, R5, R4, R3, R2 by (try done; unfold inc; lia). by apply R1.
  - (* Modify *) right.
    destruct (m !! x) as [[t0 r0]|] eqn:Hx; [|done]. simpl in HE. destruct (f t0) as [t'|] eqn:Hf; [|done]. simpl in HE. injection HE as <-.
    destruct (winv_get _ _ _ _ _ HW Hx) as (p & Ep & Et & Hp). unfold exec, var. rewrite Ep. cbn [odef obnd].
    destruct (private_spec _ _ _ Hp) as (h1 & p1 & -> & H1 & Z1 & T1 & R1). cbn [obnd].
    destruct (Hinv_load _ _ p1 H1) as (o & Ho & _ & ->); [rewrite inc_same; lia|]. cbn [obnd].
    assert (entity o = t0) as ->. { rewrite Et in T1. unfold ent in T1. rewrite Ho in T1. by injection T1. }
    rewrite Hf. cbn [odef obnd].
    destruct (write_spec _ _ p1 t' H1) as (h2 & -> & H2 & T2 & R2); [rewrite inc_same; lia|]. cbn [obnd].
    eexists. split; [reflexivity|]. apply winv_set; [done..|]. intros q Hq. rewrite R2 by (intros ->; lia). by apply R1.
  - (* Init *) right.
    destruct (m !! x) as [[t0 r0]|] eqn:Hx; [|done]. simpl in HE. injection HE as <-.
    destruct (winv_get _ _ _ _ _ HW Hx) as (p & Ep & Et & Hp). unfold exec, var. rewrite Ep. cbn [odef obnd].
    destruct (init_spec _ _ _ rows Hp) as (h1 & p1 & -> & H1 & Z1 & T1 & R1). cbn [obnd].
    eexists. split; [reflexivity|]. by apply winv_set.
  - (* SetRoot *) right.
    destruct (m !! x) as [[t0 r0]|] eqn:Hx; [|done]. simpl in HE. injection HE as <-.
    destruct (winv_get _ _ _ _ _ HW Hx) as (p & Ep & Et & Hp). unfold exec, var. rewrite Ep. cbn [odef obnd].
    eexists. split; [reflexivity|]. by apply winv_set.
Qed.
End with_alloc.
