(** The levels of reduce_ and reduceMP_ meet the contract of P_RLevel.v. *)
From Verif Require Import Base Sem M_Table Tree P_Red M_Index P_Index P_RLevel M_Hash P_Hash M_Reducer.

Definition mode_of (B Z : bool) : rmode := if B then RB else if Z then RZ else RQ.

Lemma node_eqb_codes p q : node_eqb p q = true <-> map code p = map code q.
Proof.
  unfold node_eqb. rewrite andb_true_iff, Nat.eqb_eq. revert q. induction p as [|f p IH]; intros [|g q].
  - done.
  - split; [intros [? _]; done|done].
  - split; [intros [? _]; done|done].
  - simpl. rewrite andb_true_iff, neqb_true. split.
    + intros (Hl & Hfg & Hr). f_equal; [done|]. apply IH. split; [congruence|done].
    + intros H. injection H as H1 H2 H3. apply IH in H3 as [H3 H4]. split_and!; [congruence|unfold code; congruence|done].
Qed.

Lemma node_hash_codes p q : map code p = map code q -> node_hash p = node_hash q.
Proof.
  destruct p as [|f p], q as [|g q]; try done. simpl. intros H. injection H as H1 H2 H3.
  assert (idcode f = idcode g) as E by (unfold idcode; congruence). rewrite E. clear E H1 H2 f.
  generalize (idcode g) as h. revert q H3. induction p as [|f p IH]; intros [|g' q] H3 h; try done.
  simpl in *. injection H3 as H1 H2 H3. assert (idcode f = idcode g') as -> by (unfold idcode; congruence). by apply IH.
Qed.

Lemma e_sym x y : e_eqb x y = e_eqb y x.
Proof.
  unfold e_eqb. destruct (node_eqb (snd x) (snd y)) eqn:E.
  - symmetry. apply node_eqb_codes. symmetry. by apply node_eqb_codes.
  - destruct (node_eqb (snd y) (snd x)) eqn:E'; [|done]. apply node_eqb_codes in E'.
    symmetry in E'. apply node_eqb_codes in E'. congruence.
Qed.
Lemma e_hash_ok x y : e_eqb x y = true -> e_hash x = e_hash y.
Proof. intros H. by apply node_hash_codes, node_eqb_codes. Qed.

Lemma node_del_delc B Z p : 0 < length p -> node_del B Z p = Some (delc (mode_of B Z) p).
Proof.
  intros H. destruct p as [|f p]; [simpl in H; lia|]. unfold node_del, mode_of. destruct B, Z; simpl; try done.
Qed.

(** ** Entering nodes into the table *)
Record uinv (ri : nat) (nid0 : list nid) (D : nat -> node -> Prop) (u : htable (nat * node)) (newId : list nid) (jj : nat) : Prop := {
  u_good : ht_good e_hash e_eqb u;
  u_len : length newId = length nid0;
  u_old : forall k, (forall q, ~ D k q) -> newId !! k = nid0 !! k;
  u_el : forall e, e ∈ ht_elems u -> D (fst e) (snd e);
  u_all : forall k q, D k q -> exists e, e ∈ ht_elems u /\ map code (snd e) = map code q;
  u_id : forall k q, D k q -> exists f k' q' g, newId !! k = Some f /\ row f = ri /\ col f < jj /\
    D k' q' /\ map code q' = map code q /\ q' !! 0 = Some g /\ attr f = hasEmpty g;
  u_col : forall k q k' q' f f', D k q -> D k' q' -> newId !! k = Some f -> newId !! k' = Some f' ->
    col f = col f' <-> map code q = map code q';
  u_surj : forall c, c < jj -> exists k q f, D k q /\ newId !! k = Some f /\ col f = c
}.

Lemma uinv_init ri nid0 n : uinv ri nid0 (fun _ _ => False) (ht_init n) nid0 0.
Proof.
  constructor; try done.
  - left. apply ht_init_strong.
  - destruct (@ht_init_facts (nat * node) n) as (_ & _ & _ & _ & ->). intros e He. by apply elem_of_nil in He.
  - intros c Hc. lia.
Qed.

Lemma uinv_iff ri nid0 D D' u newId jj : (forall k q, D k q <-> D' k q) -> uinv ri nid0 D u newId jj -> uinv ri nid0 D' u newId jj.
Proof.
  intros HD [H1 H2 H3 H4 H5 H6 H7 H8]. constructor; try done.
  - intros k Hk. apply H3. intros q Hq. apply (Hk q). by apply HD.
  - intros e He. by apply HD, H4.
  - intros k q Hq. apply HD in Hq. eauto.
  - intros k q Hq. apply HD in Hq. destruct (H6 k q Hq) as (f & k' & q' & g & ? & ? & ? & Hd & ?).
    exists f, k', q', g. split_and!; try tauto. by apply HD.
  - intros k q k' q' f f' Hq Hq'. apply HD in Hq, Hq'. eauto.
  - intros c Hc. destruct (H8 c Hc) as (k & q & f & Hd & ?). exists k, q, f. split; [by apply HD|done].
Qed.

Lemma uniq_step_ok ri nid0 D u newId jj j p :
  uinv ri nid0 D u newId jj -> (forall q, ~ D j q) -> j < length nid0 -> 0 < length p ->
  exists u' newId' jj', uniq_step ri (u, newId, jj) (j, p) = Some (u', newId', jj') /\
    uinv ri nid0 (fun k q => D k q \/ (k = j /\ q = p)) u' newId' jj'.
Proof.
  intros [H1 H2 H3 H4 H5 H6 H7 H8] Hnew Hj Hp. unfold uniq_step.
  destruct (ht_add_strong e_hash e_eqb e_sym e_hash_ok u (j, p) H1) as (u' & s & y & -> & Hst & Hat & Hcase).
  cbn [mbind option_bind]. rewrite Hat. cbn [mbind option_bind fst snd].
  destruct (lookup_lt_is_Some_2 newId j ltac:(lia)) as [old Hold]. rewrite Hold. cbn [mbind option_bind].
  assert (forall k q, D k q -> k <> j) as Hne by (intros k q Hk ->; by apply (Hnew q)).
  destruct p as [|g0 p]; [simpl in Hp; lia|].
  destruct Hcase as [(Hy & Heq & Hperm)|(-> & Hfr & Hperm)].
  - pose proof (H4 y Hy) as Dy. pose proof (Hne _ _ Dy) as Hyj.
    destruct (Nat.eqb_spec (fst y) j); [done|].
    destruct (H6 _ _ Dy) as (ff & k0 & q0 & g & F1 & F2 & F3 & F4 & F5 & F6 & F7). rewrite F1. cbn [mbind option_bind].
    unfold e_eqb in Heq. apply node_eqb_codes in Heq. cbn [snd] in Heq.
    eexists _, _, _. split; [done|]. constructor.
    + by left.
    + by rewrite insert_length.
    + intros k Hk. rewrite list_lookup_insert_ne. { apply H3. intros q Hq. apply (Hk q). by left. }
      intros ->. apply (Hk (g0 :: p)). by right.
    + intros e He. rewrite Hperm in He. left. by apply H4.
    + intros k q [Hk|[-> ->]].
      * destruct (H5 k q Hk) as (e & He & Hc). exists e. by rewrite Hperm.
      * exists y. by rewrite Hperm.
    + intros k q [Hk|[-> ->]].
      * rewrite list_lookup_insert_ne by (apply not_eq_sym; by eapply Hne).
        destruct (H6 k q Hk) as (f & k' & q' & g' & ? & ? & ? & Hd & ?). exists f, k', q', g'. split_and!; try tauto.
      * rewrite list_lookup_insert by lia. exists ff, k0, q0, g. split_and!; try done; [by left|congruence].
    + assert (forall k q f, D k q -> newId !! k = Some f -> col f = col ff <-> map code q = map code (g0 :: p)) as Hx.
      { intros k q f Hk Hf. rewrite (H7 k q (fst y) (snd y) f ff) by done. by rewrite Heq. }
      intros k q k' q' f f' [Hk|[-> ->]] [Hk'|[-> ->]].
      * rewrite !list_lookup_insert_ne by (apply not_eq_sym; by eapply Hne). by apply H7.
      * rewrite list_lookup_insert_ne by (apply not_eq_sym; by eapply Hne). rewrite list_lookup_insert by lia.
        intros Hf [= <-]. by eapply Hx.
      * rewrite list_lookup_insert by lia. rewrite list_lookup_insert_ne by (apply not_eq_sym; by eapply Hne).
        intros [= <-] Hf'. pose proof (Hx k' q' f' Hk' Hf') as Hx'. split; intros E; symmetry; apply Hx'; done.
      * rewrite list_lookup_insert by lia. intros [= <-] [= <-]. done.
    + intros c Hc. destruct (H8 c Hc) as (k & q & f & Hd & Hf & ?). exists k, q, f. split_and!; [by left| |done].
      by rewrite list_lookup_insert_ne by (apply not_eq_sym; by eapply Hne).
  - cbn [fst snd head]. rewrite Nat.eqb_refl. cbn [mbind option_bind].
    eexists _, _, _. split; [done|].
    assert (forall k q, D k q -> map code q <> map code (g0 :: p)) as Hx.
    { intros k q Hk E. destruct (H5 k q Hk) as (e & He & Hc). specialize (Hfr e He). unfold e_eqb in Hfr. cbn [snd] in Hfr.
      assert (node_eqb (snd e) (g0 :: p) = true) by (apply node_eqb_codes; congruence). congruence. }
    constructor.
    + by left.
    + by rewrite insert_length.
    + intros k Hk. rewrite list_lookup_insert_ne. { apply H3. intros q Hq. apply (Hk q). by left. }
      intros ->. apply (Hk (g0 :: p)). by right.
    + intros e He. rewrite Hperm in He. apply elem_of_cons in He as [->|He]; [by right|]. left. by apply H4.
    + intros k q [Hk|[-> ->]].
      * destruct (H5 k q Hk) as (e & He & Hc). exists e. rewrite Hperm. split; [by right|done].
      * exists (j, g0 :: p). rewrite Hperm. split; [by left|done].
    + intros k q [Hk|[-> ->]].
      * rewrite list_lookup_insert_ne by (apply not_eq_sym; by eapply Hne).
        destruct (H6 k q Hk) as (f & k' & q' & g' & ? & ? & ? & Hd & ?). exists f, k', q', g'. split_and!; try tauto. lia.
      * rewrite list_lookup_insert by lia. eexists _, j, (g0 :: p), g0. split_and!; try done; [simpl; lia|by right].
    + intros k q k' q' f f' [Hk|[-> ->]] [Hk'|[-> ->]].
      * rewrite !list_lookup_insert_ne by (apply not_eq_sym; by eapply Hne). by apply H7.
      * rewrite list_lookup_insert_ne by (apply not_eq_sym; by eapply Hne). rewrite list_lookup_insert by lia.
        intros Hf [= <-]. simpl. destruct (H6 k q Hk) as (f0 & k0 & q0 & g' & E0 & ? & ? & _). assert (f0 = f) as -> by congruence.
        split; [lia|]. intros E. exfalso. by apply (Hx k q Hk).
      * rewrite list_lookup_insert by lia. rewrite list_lookup_insert_ne by (apply not_eq_sym; by eapply Hne).
        intros [= <-] Hf. simpl. destruct (H6 k' q' Hk') as (f0 & k0 & q0 & g' & E0 & ? & ? & _). assert (f0 = f') as -> by congruence.
        split; [lia|]. intros E. exfalso. by apply (Hx k' q' Hk').
      * rewrite list_lookup_insert by lia. intros [= <-] [= <-]. done.
    + intros c Hc. destruct (decide (c = jj)) as [->|Hcj].
      * eexists j, (g0 :: p), _. split_and!; [by right|by rewrite list_lookup_insert by lia|done].
      * destruct (H8 c ltac:(lia)) as (k & q & f & Hd & Hf & ?). exists k, q, f. split_and!; [by left| |done].
        by rewrite list_lookup_insert_ne by (apply not_eq_sym; by eapply Hne).
Qed.

(** ** Assembling the contract *)
Lemma lcontract_intro m i cans ids tot outrow :
  length ids = length cans ->
  (forall j p, cans !! j = Some p -> 0 < length p) ->
  (forall j p, cans !! j = Some p -> delc m p = true -> ids !! j = head p) ->
  (forall j p, cans !! j = Some p -> delc m p = false -> exists f j' p' g, ids !! j = Some f /\ row f = i /\ col f < tot /\
     cans !! j' = Some p' /\ map code p' = map code p /\ p' !! 0 = Some g /\ attr f = hasEmpty g) ->
  (forall j p j' p' f f', cans !! j = Some p -> delc m p = false -> cans !! j' = Some p' -> delc m p' = false ->
     ids !! j = Some f -> ids !! j' = Some f' -> col f = col f' <-> map code p = map code p') ->
  length outrow = tot ->
  (forall c q, outrow !! c = Some q -> exists j f, cans !! j = Some q /\ delc m q = false /\ ids !! j = Some f /\ col f = c) ->
  lcontract m i cans ids outrow.
Proof.
  intros H1 H2 H3 H4 H5 H6 H7. constructor; [done| | |].
  - intros j p Hp. destruct (delc m p) eqn:Hd.
    + destruct p as [|g p]; [by apply H2 in Hp; simpl in Hp; lia|]. exists g. split; [|done]. by rewrite (H3 j _ Hp Hd).
    + destruct (H4 j p Hp Hd) as (f & j' & p' & g & F1 & F2 & F3 & F4 & F5 & F6 & F7). exists f. split_and!; try done.
      * destruct (lookup_lt_is_Some_2 outrow (col f) ltac:(lia)) as [q Hq]. exists q. split; [done|].
        destruct (H7 _ _ Hq) as (k & f' & K1 & K2 & K3 & K4). by apply (H5 k q j p f' f K1 K2 Hp Hd K3 F1).
      * by exists j', p', g.
  - intros k q Hq. destruct (H7 _ _ Hq) as (j & f & K1 & K2 & _). split; [by eapply elem_of_list_lookup_2|done].
  - intros k k' q q' Hq Hq' E. destruct (H7 _ _ Hq) as (j & f & K1 & K2 & K3 & <-).
    destruct (H7 _ _ Hq') as (j' & f' & K1' & K2' & K3' & <-). by apply (H5 j q j' q' f f' K1 K2 K1' K2' K3 K3').
Qed.

Lemma tset_row o i w c p : o !! i = Some w -> c < length w ->
  tset o (mk i c) p = Some (<[i := <[c := p]> w]> o).
Proof.
  intros Hw Hc. unfold tset. simpl. rewrite Hw. cbn [mbind option_bind].
  destruct (lookup_lt_is_Some_2 w c Hc) as [y ->]. done.
Qed.

Lemma clear_rows_ok {A} (L : list nat) (t : list (list A)) : Forall (fun r => r < length t) L ->
  exists t', clear_rows L t = Some t' /\ length t' = length t /\
    (forall r, r ∉ L -> t' !! r = t !! r) /\ (forall r, r ∈ L -> t' !! r = Some []).
Proof.
  intros HL. unfold clear_rows.
  destruct (ofold_inv (fun (t : list (list A)) r => _ ← t !! r; Some (<[r := []]> t)) (fun pre t' =>
    length t' = length t /\ (forall r, r ∉ pre -> t' !! r = t !! r) /\ (forall r, r ∈ pre -> t' !! r = Some []))
    L t) as (t' & E & HP).
  - split_and!; [done|done|]. intros r Hr. by apply elem_of_nil in Hr.
  - intros pre r post t' Hl (P1 & P2 & P3).
    assert (r < length t) as Hr. { apply (proj1 (Forall_forall _ _) HL). rewrite Hl. apply elem_of_app. right. by left. }
    destruct (lookup_lt_is_Some_2 t' r ltac:(lia)) as [y Hy]. rewrite Hy. cbn [mbind option_bind].
    eexists. split; [done|]. split_and!.
    + by rewrite insert_length.
    + intros r' Hr'. rewrite list_lookup_insert_ne.
      * apply P2. intros Hin. apply Hr', elem_of_app. by left.
      * intros ->. apply Hr', elem_of_app. right. by left.
    + intros r' Hr'. destruct (decide (r = r')) as [->|Hne]; [by apply list_lookup_insert; lia|].
      rewrite list_lookup_insert_ne by done. apply P3. apply elem_of_app in Hr' as [?|Hr']; [done|].
      apply elem_of_list_singleton in Hr'. congruence.
  - exists t'. by split.
Qed.

(** filling a row: the loop writes node j into the column of its identifier *)
Section fill.
  Context (m : rmode) (cans : list node) (ids : list nid).
  Definition filled (J : nat) (w : list node) : Prop :=
    forall j p f, j < J -> cans !! j = Some p -> delc m p = false -> ids !! j = Some f ->
      exists j' q f', w !! col f = Some q /\ j' < J /\ cans !! j' = Some q /\ delc m q = false /\ ids !! j' = Some f' /\ col f' = col f.
  Lemma filled_0 w : filled 0 w.
  Proof. intros j p f Hj. lia. Qed.
  Lemma filled_del J w p : filled J w -> cans !! J = Some p -> delc m p = true -> filled (S J) w.
  Proof.
    intros H Hp Hd j q f Hj Hq Hdq Hf. destruct (decide (j = J)) as [->|]; [congruence|].
    destruct (H j q f ltac:(lia) Hq Hdq Hf) as (j' & q' & f' & ? & ? & ?). exists j', q', f'. split_and!; try tauto. lia.
  Qed.
  Lemma filled_set J w p f : filled J w -> cans !! J = Some p -> delc m p = false -> ids !! J = Some f -> col f < length w ->
    filled (S J) (<[col f := p]> w).
  Proof.
    intros H Hp Hd Hf Hl j q g Hj Hq Hdq Hg. destruct (decide (col g = col f)) as [E|E].
    - exists J, p, f. split_and!; try done; [|lia]. rewrite E. by apply list_lookup_insert.
    - destruct (decide (j = J)) as [->|]; [congruence|].
      destruct (H j q g ltac:(lia) Hq Hdq Hg) as (j' & q' & f' & ? & ? & ?). exists j', q', f'. split_and!; try tauto; [|lia].
      by rewrite list_lookup_insert_ne.
  Qed.
End fill.

(** ** reduce_ *)
Section reduce_level.
  Context (B Z : bool) (i : nat).
  Notation md := (mode_of B Z).

  Lemma red_loop_ok ids x cans :
    Forall2 (fun p p' => mapM (canon ids) p = Some p') x cans -> Forall (fun p => 0 < length p) cans ->
    exists u newId jj, ofor (length x) (red_step B Z i ids) (x, ht_init (length x * 2), replicate (length x) n0, 0) = Some (cans, u, newId, jj) /\
      length newId = length cans /\
      (forall j p, cans !! j = Some p -> delc md p = true -> newId !! j = head p) /\
      exists nid0, uinv i nid0 (fun k q => cans !! k = Some q /\ delc md q = false) u newId jj.
  Proof.
    intros HF Hne. pose proof (Forall2_length _ _ _ HF) as Hlen.
    destruct (ofor_inv (red_step B Z i ids) (fun J '(r, u, newId, jj) =>
      r = take J cans ++ drop J x /\ length newId = length x /\
      (forall j p, j < J -> cans !! j = Some p -> delc md p = true -> newId !! j = head p) /\
      exists nid0, length nid0 = length x /\ uinv i nid0 (fun k q => k < J /\ cans !! k = Some q /\ delc md q = false) u newId jj)
      (length x) (x, ht_init (length x * 2), replicate (length x) n0, 0)) as ([[[r u] newId] jj] & E & P1 & P2 & P3 & nid0 & P4 & P5).
    - split_and!; [done|by rewrite replicate_length|intros; lia|]. exists (replicate (length x) n0).
      split; [by rewrite replicate_length|]. eapply uinv_iff; [|apply uinv_init]. intros k q. simpl. lia.
    - intros J [[[r u] newId] jj] HJ (P1 & P2 & P3 & nid0 & P4 & P5).
      destruct (lookup_lt_is_Some_2 x J HJ) as [p Hp]. destruct (Forall2_lookup_l _ _ _ _ _ HF Hp) as (p' & Hp' & Hm).
      unfold red_step. assert (r !! J = Some p) as ->.
      { subst r. rewrite lookup_app_r by (rewrite take_length; lia). rewrite take_length.
        replace (J - J `min` length cans) with 0 by lia. rewrite lookup_drop. by rewrite Nat.add_0_r. }
      cbn [mbind option_bind]. rewrite Hm. cbn [mbind option_bind].
      assert (0 < length p') as Hl' by (by apply (Forall_lookup_1 _ _ _ _ Hne Hp')).
      rewrite node_del_delc by done. cbn [mbind option_bind].
      destruct p' as [|g p']; [simpl in Hl'; lia|]. cbn [head mbind option_bind].
      assert (<[J:=g :: p']> r = take (S J) cans ++ drop (S J) x) as Hr.
      { subst r. apply list_eq. intros k. destruct (decide (k = J)) as [->|Hk].
        - rewrite list_lookup_insert by (rewrite app_length, take_length, drop_length; lia).
          rewrite lookup_app_l by (rewrite take_length; lia). by rewrite lookup_take by lia.
        - rewrite list_lookup_insert_ne by done. destruct (decide (k < J)).
          + rewrite !lookup_app_l by (rewrite take_length; lia). by rewrite !lookup_take by lia.
          + rewrite !lookup_app_r by (rewrite take_length; lia). rewrite !take_length, !lookup_drop. f_equal. lia. }
      rewrite Hr. destruct (delc md (g :: p')) eqn:Hd.
      + destruct (lookup_lt_is_Some_2 newId J ltac:(lia)) as [old Hold]. rewrite Hold. cbn [mbind option_bind].
        eexists. split; [done|]. cbn beta iota. split_and!; [done|by rewrite insert_length| |].
        * intros j q Hj Hq Hdq. destruct (decide (j = J)) as [->|Hjn].
          -- rewrite list_lookup_insert by lia. assert (q = g :: p') as -> by congruence. done.
          -- rewrite list_lookup_insert_ne by done. apply P3; [lia|done..].
        * exists (<[J := g]> nid0). split; [by rewrite insert_length|].
          destruct P5 as [H1 H2 H3 H4 H5 H6 H7 H8].
          assert (forall k q, k < S J /\ cans !! k = Some q /\ delc md q = false -> k < J /\ cans !! k = Some q /\ delc md q = false) as Hin.
          { intros k q (K1 & K2 & K3). destruct (decide (k = J)) as [->|]; [congruence|]. split_and!; try done. lia. }
          constructor; try done.
          -- by rewrite !insert_length.
          -- intros k Hk. destruct (decide (k = J)) as [->|Hkn]; [by rewrite !list_lookup_insert by lia|].
             rewrite !list_lookup_insert_ne by done. apply H3. intros q (K1 & K2). apply (Hk q). split; [lia|done].
          -- intros e He. destruct (H4 e He) as (K1 & K2). split; [lia|done].
          -- intros k q Hk. apply Hin in Hk. by apply (H5 k q).
          -- intros k q Hk. apply Hin in Hk. destruct (H6 k q Hk) as (f & k' & q' & g' & F1 & F2 & F3 & (F4 & F4') & F5).
             exists f, k', q', g'. split_and!; try tauto; [|lia]. rewrite list_lookup_insert_ne by lia. done.
          -- intros k q k' q' f f' Hk Hk'. apply Hin in Hk, Hk'. rewrite !list_lookup_insert_ne by lia. by eapply H7.
          -- intros c Hc. destruct (H8 c Hc) as (k & q & f & (K1 & K2) & K3 & K4). exists k, q, f.
             split_and!; try tauto; [lia|]. rewrite list_lookup_insert_ne by lia. done.
      + destruct (uniq_step_ok _ _ _ _ _ _ J (g :: p') P5) as (u' & newId' & jj' & Eu & Hu).
        { intros q (K & _). lia. } { lia. } { simpl; lia. }
        rewrite Eu. cbn [mbind option_bind]. eexists. split; [done|]. cbn beta iota.
        assert (uinv i nid0 (fun k q => k < S J /\ cans !! k = Some q /\ delc md q = false) u' newId' jj') as Hu'.
        { eapply uinv_iff; [|exact Hu]. intros k q. simpl. split.
          - intros [(K1 & K2 & K3)|[-> ->]]; split_and!; try done; lia.
          - intros (K1 & K2 & K3). destruct (decide (k = J)) as [->|]; [right; split; [done|congruence]|].
            left. split_and!; try done. lia. }
        split_and!; [done|by rewrite (u_len _ _ _ _ _ _ Hu')| |].
        * intros j q Hj Hq Hdq. assert (j <> J) by (intros ->; congruence).
          rewrite (u_old _ _ _ _ _ _ Hu') by (intros q' (_ & K2 & K3); congruence).
          rewrite <- (u_old _ _ _ _ _ _ P5) by (intros q' (_ & K2 & K3); congruence). apply P3; [lia|done..].
        * exists nid0. done.
    - exists u, newId, jj. rewrite P1 in E. rewrite take_ge, drop_ge, app_nil_r in E by lia. split; [done|].
      split_and!; [lia| |].
      + intros j p Hp. apply P3; [|done]. apply lookup_lt_Some in Hp. lia.
      + exists nid0. eapply uinv_iff; [|exact P5]. intros k q. simpl. split; [tauto|]. intros [K1 K2].
        split_and!; try done. apply lookup_lt_Some in K1. lia.
  Qed.

  Lemma reduce_level_ok a n lo s x cans L o0 :
    s_in s !! i = Some x -> Forall2 (fun p p' => mapM (canon (s_ids s)) p = Some p') x cans ->
    Forall (fun p => 0 < length p) cans -> Forall (Forall (fun g => row g < i)) cans ->
    lo !! i = Some L -> Forall (fun r => r < length (s_ids s)) L -> i < length (s_ids s) ->
    s_out s !! i = Some o0 -> (i = n -> col (s_root s) < length x) ->
    exists newId outrow ids root, reduce_level B Z a n lo s i = Some (RS (<[i := []]> (s_in s)) ids (<[i := outrow]> (s_out s)) root) /\
      lcontract md i cans newId outrow /\ clear_rows L (<[i := newId]> (s_ids s)) = Some ids /\
      new_root n i newId (s_root s) = Some root.
  Proof.
    intros Hx HF Hne Hrows HL HLr Hil Ho0 Hroot. unfold reduce_level. rewrite Hx. cbn [mbind option_bind].
    pose proof (Forall2_length _ _ _ HF) as Hlen.
    destruct (red_loop_ok _ _ _ HF Hne) as (u & newId & jj & -> & N1 & N2 & nid0 & HU). cbn [mbind option_bind].
    rewrite HL. cbn [mbind option_bind]. destruct (lookup_lt_is_Some_2 (s_ids s) i Hil) as [y Hy]. rewrite Hy. cbn [mbind option_bind].
    destruct (clear_rows_ok L (<[i := newId]> (s_ids s))) as (ids & Eids & _).
    { eapply Forall_impl; [exact HLr|]. intros r Hr. simpl. by rewrite insert_length. }
    rewrite Eids. cbn [mbind option_bind]. unfold set_row. rewrite Ho0. cbn [mbind option_bind].
    assert (forall j p, cans !! j = Some p -> delc md p = false -> exists f, newId !! j = Some f /\ row f = i /\ col f < jj) as Hnd.
    { intros j p Hp Hd. destruct (u_id _ _ _ _ _ _ HU j p (conj Hp Hd)) as (f & _ & _ & _ & F1 & F2 & F3 & _). by exists f. }
    assert (i < length (s_out s)) as Hio by (by eapply lookup_lt_Some).
    destruct (ofor_inv (fill_step i cans newId) (fun J o => exists w, o = <[i := w]> (s_out s) /\ length w = jj /\ filled md cans newId J w)
      (length x) (<[i := replicate jj (junk_node a)]> (s_out s))) as (o' & -> & w & -> & W1 & W2).
    - eexists. split_and!; [done|by rewrite replicate_length|apply filled_0].
    - intros J o HJ (w & -> & W1 & W2). unfold fill_step.
      destruct (lookup_lt_is_Some_2 cans J ltac:(lia)) as [p Hp].
      destruct (delc md p) eqn:Hd.
      + rewrite (N2 J p Hp Hd). destruct p as [|g p]; [apply (Forall_lookup_1 _ _ _ _ Hne) in Hp; simpl in Hp; lia|].
        cbn [head mbind option_bind]. pose proof (Forall_lookup_1 _ _ _ _ Hrows Hp) as Hr. inversion Hr; subst.
        destruct (Nat.eqb_spec (row g) i); [lia|]. eexists. split; [done|]. exists w. split_and!; try done.
        by eapply filled_del.
      + destruct (Hnd J p Hp Hd) as (f & F1 & F2 & F3). rewrite F1. cbn [mbind option_bind].
        rewrite F2, Nat.eqb_refl, Hp. cbn [mbind option_bind].
        rewrite (tset_row _ i w) by (first [by rewrite list_lookup_insert|lia]). eexists. split; [done|].
        rewrite list_insert_insert. eexists. split; [done|]. split; [by rewrite insert_length|].
        apply filled_set; try done. lia.
    - cbn [mbind option_bind]. unfold new_root.
      assert (exists root, (if i =? n then newId !! col (s_root s) else Some (s_root s)) = Some root) as [root Er].
      { destruct (Nat.eqb_spec i n); [|eauto]. apply lookup_lt_is_Some_2. rewrite N1. specialize (Hroot e). lia. }
      rewrite Er. cbn [mbind option_bind]. exists newId, w, ids, root. split_and!; [done| |done|done].
      apply (lcontract_intro md i cans newId jj w); try done.
      + intros j p Hp. by apply (Forall_lookup_1 _ _ _ _ Hne) in Hp.
      + intros j p Hp Hd. destruct (u_id _ _ _ _ _ _ HU j p (conj Hp Hd)) as (f & k' & q' & g & F1 & F2 & F3 & (F4 & _) & F5 & F6 & F7).
        exists f, k', q', g. done.
      + intros j p j' p' f f' Hp Hd Hp' Hd'. by apply (u_col _ _ _ _ _ _ HU).
      + intros c q Hq. assert (c < jj) as Hc by (rewrite <- W1; by eapply lookup_lt_Some).
        destruct (u_surj _ _ _ _ _ _ HU c Hc) as (k & q0 & f & (K1 & K2) & K3 & <-).
        destruct (W2 k q0 f) as (j' & q' & f' & V1 & V2 & V3 & V4 & V5 & V6); [rewrite Hlen; by eapply lookup_lt_Some|done..|].
        assert (q' = q) as -> by congruence. by exists j', f'.
  Qed.
End reduce_level.
