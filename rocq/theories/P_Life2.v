(** The memory operations of the specification classes keep the contract. *)
From Verif Require Import Base Sem M_Ops M_Life S_Life.
Local Open Scope Z_scope.

Lemma full_ok sp L : life_full sp L -> life_ok sp L.
Proof.
  intros [F0 F1 F2 F3 F4]. split; try done.
  - intros m Hm. destruct (F1 m Hm) as (m' & E & V). exists m'. split; [done|]. split; [done|]. by eapply F4.
  - intros m s l b Hm. destruct (F2 m s l b Hm) as (m' & E & V). exists m'. split; [done|]. split; [done|]. by eapply F4.
Qed.

Lemma state_full sp : life_full sp (ls_state sp).
Proof.
  split; simpl.
  - done.
  - intros [s|]; [done|]. intros _. by eexists.
  - intros [s'|] s l b; [|done]. intros [= ->]. cbn [mbind option_bind]. destruct (get_child sp s l b). by eexists.
  - intros [s'|] [s2|] s; try done. intros _ [= ->]. by eexists.
  - intros [s'|] s; [|done]. intros _. by exists None.
Qed.

Lemma pod_full sp : life_full sp (ls_pod sp).
Proof.
  split; simpl.
  - done.
  - intros m _. by eexists.
  - intros [s'|] s l b; [|done]. intros [= ->]. cbn [mbind option_bind]. destruct (get_child sp s l b). by eexists.
  - intros to [s2|] s; try done. intros _ [= ->]. by eexists.
  - intros m s _. by exists m.
Qed.

Lemma stateless_full sp s0 : (forall s : St sp, s = s0) -> life_full sp (ls_stateless sp s0).
Proof.
  intros Hs. split; simpl.
  - done.
  - intros m _. eexists. split; [done|]. by rewrite (Hs (snd _)).
  - intros m s l b _. rewrite (Hs s). eexists. split; [done|]. by rewrite (Hs (snd _)).
  - intros to from s _ _. eexists. split; [done|]. by rewrite (Hs s).
  - intros m s _. by exists tt.
Qed.

Lemma hybrid_full sp : life_full sp (ls_hybrid sp true).
Proof.
  split; simpl.
  - done.
  - intros m _. by eexists.
  - intros [s'|] s l b; [|done]. intros [= ->]. cbn [mbind option_bind]. destruct (get_child sp s l b). by eexists.
  - intros to [s2|] s; try done. intros _ [= ->]. by eexists.
  - intros m s _. by exists m.
Qed.

Section binary.
  Context (sp1 sp2 : spec) (L1 : lspec (St sp1)) (L2 : lspec (St sp2)).
  Context (F1 : life_full sp1 L1) (F2 : life_full sp2 L2).
  Notation bmem := (bmem sp1 sp2 L1 L2).
  Notation Bm := (Bm sp1 sp2 L1 L2).
  Notation bm_val := (bm_val sp1 sp2 L1 L2).

  Lemma bval_inv (m : bmem) s : bm_val m = Some s ->
    bm_l1 _ _ _ _ m = Some (lv1 s) /\ bm_l2 _ _ _ _ m = Some (lv2 s) /\
    l_val L1 (bm_1 _ _ _ _ m) = Some (st1 s) /\ l_val L2 (bm_2 _ _ _ _ m) = Some (st2 s).
  Proof.
    unfold M_Life.bm_val. destruct m as [[i1|] [i2|] t1 t2]; cbn [bm_l1 bm_l2 bm_1 bm_2 mbind option_bind]; try done.
    destruct (l_val L1 t1) as [s1|]; cbn [mbind option_bind]; [|done].
    destruct (l_val L2 t2) as [s2|]; cbn [mbind option_bind]; [|done]. intros [= <-]. done.
  Qed.
  Lemma bval_mk i1 i2 t1 t2 s1 s2 : l_val L1 t1 = Some s1 -> l_val L2 t2 = Some s2 ->
    bm_val (Bm (Some i1) (Some i2) t1 t2) = Some (BState i1 s1 i2 s2).
  Proof. intros E1 E2. unfold M_Life.bm_val. cbn [bm_l1 bm_l2 bm_1 bm_2 mbind option_bind]. rewrite E1. cbn [mbind option_bind]. by rewrite E2. Qed.

  Lemma bm_copy_full to from s : bm_rawb sp1 sp2 L1 L2 to = true -> bm_val from = Some s ->
    exists to', bm_copy sp1 sp2 L1 L2 to from = Some to' /\ bm_val to' = Some s.
  Proof using F1 F2.
    unfold bm_rawb. intros [R1 R2]%andb_true_iff Hv. destruct (bval_inv _ _ Hv) as (E1 & E2 & V1 & V2).
    destruct (lf_copy _ _ F1 _ _ _ R1 V1) as (t1 & C1 & W1). destruct (lf_copy _ _ F2 _ _ _ R2 V2) as (t2 & C2 & W2).
    unfold bm_copy. rewrite C1. cbn [mbind option_bind]. rewrite C2. cbn [mbind option_bind]. eexists. split; [done|].
    rewrite E1, E2. rewrite (bval_mk _ _ _ _ _ _ W1 W2). by destruct s.
  Qed.
  Lemma bm_destr i1 i2 t1 t2 s1 s2 : l_val L1 t1 = Some s1 -> l_val L2 t2 = Some s2 ->
    exists m', bm_destruct sp1 sp2 L1 L2 (Bm i1 i2 t1 t2) = Some m' /\ bm_rawb sp1 sp2 L1 L2 m' = true.
  Proof using F1 F2.
    intros V1 V2. destruct (lf_destruct _ _ F1 _ _ V1) as (u1 & D1 & R1). destruct (lf_destruct _ _ F2 _ _ V2) as (u2 & D2 & R2).
    unfold bm_destruct. cbn [bm_1 bm_2 bm_l1 bm_l2]. rewrite D1. cbn [mbind option_bind]. rewrite D2. cbn [mbind option_bind].
    eexists. split; [done|]. unfold bm_rawb. cbn [bm_1 bm_2]. by rewrite R1, R2.
  Qed.
  Lemma bm_destr_full m s : bm_val m = Some s ->
    exists m', bm_destruct sp1 sp2 L1 L2 m = Some m' /\ bm_rawb sp1 sp2 L1 L2 m' = true.
  Proof using F1 F2.
    intros Hv. destruct (bval_inv _ _ Hv) as (_ & _ & V1 & V2). destruct m as [i1 i2 t1 t2]. by eapply bm_destr.
  Qed.
  Lemma bm_init_raw : bm_rawb sp1 sp2 L1 L2 (bm_init sp1 sp2 L1 L2) = true.
  Proof using F1 F2. unfold bm_rawb, bm_init. cbn [bm_1 bm_2]. by rewrite (lf_init _ _ F1), (lf_init _ _ F2). Qed.

  (** the component step of getChild: get_child when the component is at this level *)
  Lemma step1 (t1 : l_T L1) s1 (v level : Z) take : l_val L1 t1 = Some s1 -> exists t1',
    (if v =? level then l_child L1 t1 level take else Some (v, t1)) =
      Some (fst (if v =? level then get_child sp1 s1 level take else (v, s1)), t1') /\
    l_val L1 t1' = Some (snd (if v =? level then get_child sp1 s1 level take else (v, s1))).
  Proof using F1.
    intros V. destruct (v =? level); [|by exists t1].
    destruct (lf_child _ _ F1 _ _ level take V) as (t' & -> & V'). by exists t'.
  Qed.
  Lemma step2 (t2 : l_T L2) s2 (v level : Z) take : l_val L2 t2 = Some s2 -> exists t2',
    (if v =? level then l_child L2 t2 level take else Some (v, t2)) =
      Some (fst (if v =? level then get_child sp2 s2 level take else (v, s2)), t2') /\
    l_val L2 t2' = Some (snd (if v =? level then get_child sp2 s2 level take else (v, s2))).
  Proof using F2.
    intros V. destruct (v =? level); [|by exists t2].
    destruct (lf_child _ _ F2 _ _ level take V) as (t' & -> & V'). by exists t'.
  Qed.
  Lemma ustep1 (t1 : l_T L1) s1 (v level : Z) take : l_val L1 t1 = Some s1 -> exists t1',
    (if v =? level then l_child L1 t1 level take else Some (if (take =? 0)%nat then v else 0, t1)) =
      Some (fst (if v =? level then get_child sp1 s1 level take else if (take =? 0)%nat then (v, s1) else (0, s1)), t1') /\
    l_val L1 t1' = Some (snd (if v =? level then get_child sp1 s1 level take else if (take =? 0)%nat then (v, s1) else (0, s1))).
  Proof using F1.
    intros V. destruct (v =? level).
    - destruct (lf_child _ _ F1 _ _ level take V) as (t' & -> & V'). by exists t'.
    - exists t1. by destruct (take =? 0)%nat.
  Qed.
  Lemma ustep2 (t2 : l_T L2) s2 (v level : Z) take : l_val L2 t2 = Some s2 -> exists t2',
    (if v =? level then l_child L2 t2 level take else Some (if (take =? 0)%nat then v else 0, t2)) =
      Some (fst (if v =? level then get_child sp2 s2 level take else if (take =? 0)%nat then (v, s2) else (0, s2)), t2') /\
    l_val L2 t2' = Some (snd (if v =? level then get_child sp2 s2 level take else if (take =? 0)%nat then (v, s2) else (0, s2))).
  Proof using F2.
    intros V. destruct (v =? level).
    - destruct (lf_child _ _ F2 _ _ level take V) as (t' & -> & V'). by exists t'.
    - exists t2. by destruct (take =? 0)%nat.
  Qed.

  Lemma and_child_full (m : bmem) s l b : bm_val m = Some s -> exists m',
    land_child sp1 sp2 L1 L2 m l b = Some (fst (and_child sp1 sp2 s l b), m') /\
    bm_val m' = Some (snd (and_child sp1 sp2 s l b)).
  Proof using F1 F2.
    intros Hv. destruct (bval_inv _ _ Hv) as (E1 & E2 & V1 & V2). unfold land_child, and_child.
    rewrite E1, E2. cbn [mbind option_bind].
    destruct (step1 _ _ (lv1 s) l b V1) as (t1 & -> & W1). cbn [mbind option_bind].
    set (r1 := if lv1 s =? l then get_child sp1 (st1 s) l b else (lv1 s, st1 s)) in *.
    destruct ((lv1 s =? l) && (fst r1 =? 0)).
    { eexists. split; [done|]. cbn [snd]. by apply bval_mk. }
    destruct (step2 _ _ (lv2 s) l b V2) as (t2 & -> & W2). cbn [mbind option_bind].
    set (r2 := if lv2 s =? l then get_child sp2 (st2 s) l b else (lv2 s, st2 s)) in *.
    destruct ((lv2 s =? l) && (fst r2 =? 0)).
    - eexists. split; [done|]. cbn [snd]. by apply bval_mk.
    - eexists. split; [done|]. cbn [snd]. by apply bval_mk.
  Qed.
  Lemma or_child_full (m : bmem) s l b : bm_val m = Some s -> exists m',
    lor_child sp1 sp2 L1 L2 m l b = Some (fst (or_child sp1 sp2 s l b), m') /\
    bm_val m' = Some (snd (or_child sp1 sp2 s l b)).
  Proof using F1 F2.
    intros Hv. destruct (bval_inv _ _ Hv) as (E1 & E2 & V1 & V2). unfold lor_child, or_child.
    rewrite E1, E2. cbn [mbind option_bind].
    destruct (step1 _ _ (lv1 s) l b V1) as (t1 & -> & W1). cbn [mbind option_bind].
    set (r1 := if lv1 s =? l then get_child sp1 (st1 s) l b else (lv1 s, st1 s)) in *.
    destruct ((lv1 s =? l) && (fst r1 <? 0)).
    { eexists. split; [done|]. cbn [snd]. by apply bval_mk. }
    destruct (step2 _ _ (lv2 s) l b V2) as (t2 & -> & W2). cbn [mbind option_bind].
    set (r2 := if lv2 s =? l then get_child sp2 (st2 s) l b else (lv2 s, st2 s)) in *.
    destruct ((lv2 s =? l) && (fst r2 <? 0)).
    - eexists. split; [done|]. cbn [snd]. by apply bval_mk.
    - eexists. split; [done|]. cbn [snd]. by apply bval_mk.
  Qed.
  Lemma union_child_full (m : bmem) s l b : bm_val m = Some s -> exists m',
    lun_child sp1 sp2 L1 L2 m l b = Some (fst (union_child sp1 sp2 s l b), m') /\
    bm_val m' = Some (snd (union_child sp1 sp2 s l b)).
  Proof using F1 F2.
    intros Hv. destruct (bval_inv _ _ Hv) as (E1 & E2 & V1 & V2). unfold lun_child, union_child.
    rewrite E1, E2. cbn [mbind option_bind].
    destruct (ustep1 _ _ (lv1 s) l b V1) as (t1 & -> & W1). cbn [mbind option_bind].
    destruct (ustep2 _ _ (lv2 s) l b V2) as (t2 & -> & W2). cbn [mbind option_bind].
    eexists. split; [done|]. cbn [snd]. by apply bval_mk.
  Qed.

  Lemma and_full : fst (get_root sp1) <> 0 -> fst (get_root sp2) <> 0 -> life_full (bdd_and sp1 sp2) (ls_and sp1 sp2 L1 L2).
  Proof using F1 F2.
    intros N1 N2. split; cbn [ls_and l_T l_init l_rawb l_val l_root l_child l_copy bdd_and get_root get_child St].
    - apply bm_init_raw.
    - unfold bm_rawb. intros m [R1 R2]%andb_true_iff. unfold land_root, and_root.
      destruct (lf_root _ _ F1 _ R1) as (t1 & -> & V1). cbn [mbind option_bind].
      destruct (Z.eqb_spec (fst (get_root sp1)) 0); [done|].
      destruct (lf_root _ _ F2 _ R2) as (t2 & -> & V2). cbn [mbind option_bind].
      destruct (Z.eqb_spec (fst (get_root sp2)) 0); [done|]. eexists. split; [done|]. cbn [snd]. by apply bval_mk.
    - apply and_child_full.
    - apply bm_copy_full.
    - apply bm_destr_full.
  Qed.
  Lemma or_full : 0 <= fst (get_root sp1) -> 0 <= fst (get_root sp2) -> life_full (bdd_or sp1 sp2) (ls_or sp1 sp2 L1 L2).
  Proof using F1 F2.
    intros N1 N2. split; cbn [ls_or l_T l_init l_rawb l_val l_root l_child l_copy bdd_or get_root get_child St].
    - apply bm_init_raw.
    - unfold bm_rawb. intros m [R1 R2]%andb_true_iff. unfold lor_root, or_root.
      destruct (lf_root _ _ F1 _ R1) as (t1 & -> & V1). cbn [mbind option_bind].
      destruct (Z.ltb_spec (fst (get_root sp1)) 0); [lia|].
      destruct (lf_root _ _ F2 _ R2) as (t2 & -> & V2). cbn [mbind option_bind].
      destruct (Z.ltb_spec (fst (get_root sp2)) 0); [lia|]. eexists. split; [done|]. cbn [snd]. by apply bval_mk.
    - apply or_child_full.
    - apply bm_copy_full.
    - apply bm_destr_full.
  Qed.
  Lemma union_full : 0 < fst (get_root sp1) \/ 0 < fst (get_root sp2) ->
    life_full (zdd_union sp1 sp2) (ls_union sp1 sp2 L1 L2).
  Proof using F1 F2.
    intros N. split; cbn [ls_union l_T l_init l_rawb l_val l_root l_child l_copy zdd_union get_root get_child St].
    - apply bm_init_raw.
    - unfold bm_rawb. intros m [R1 R2]%andb_true_iff. unfold lun_root, union_root, union_code.
      destruct (lf_root _ _ F1 _ R1) as (t1 & -> & V1). cbn [mbind option_bind].
      destruct (lf_root _ _ F2 _ R2) as (t2 & -> & V2). cbn [mbind option_bind].
      destruct (Z.eqb_spec (fst (get_root sp1)) 0), (Z.eqb_spec (fst (get_root sp2)) 0); cbn [andb]; try lia;
        destruct (Z.leb_spec (fst (get_root sp1)) 0), (Z.leb_spec (fst (get_root sp2)) 0); cbn [andb]; try lia;
        (eexists; split; [done|]; cbn [snd]; by apply bval_mk).
    - apply union_child_full.
    - apply bm_copy_full.
    - apply bm_destr_full.
  Qed.

  (** what a builder needs, when only the first root is known *)
  Lemma and_ok : fst (get_root sp1) <> 0 -> life_ok (bdd_and sp1 sp2) (ls_and sp1 sp2 L1 L2).
  Proof using F1 F2.
    intros N1. destruct (Z.eq_dec (fst (get_root sp2)) 0) as [E|N2]; [|by apply full_ok, and_full].
    split; cbn [ls_and l_T l_init l_rawb l_val l_root l_child l_copy bdd_and get_root get_child St].
    - unfold bm_rawb. intros m [R1 R2]%andb_true_iff. unfold land_root, and_root.
      destruct (lf_root _ _ F1 _ R1) as (t1 & -> & V1). cbn [mbind option_bind].
      destruct (Z.eqb_spec (fst (get_root sp1)) 0); [done|].
      destruct (lf_root _ _ F2 _ R2) as (t2 & -> & V2). cbn [mbind option_bind].
      rewrite E. rewrite Z.eqb_refl. eexists. split; [done|]. split; [done|]. by eapply bm_destr.
    - intros m s l b Hv. destruct (and_child_full m s l b Hv) as (m' & Em & Vm). exists m'. split; [done|]. split; [done|].
      by eapply bm_destr_full.
    - apply bm_copy_full.
    - apply bm_destr_full.
  Qed.
  Lemma or_ok : 0 <= fst (get_root sp1) -> life_ok (bdd_or sp1 sp2) (ls_or sp1 sp2 L1 L2).
  Proof using F1 F2.
    intros N1. destruct (Z.lt_ge_cases (fst (get_root sp2)) 0) as [E|N2]; [|by apply full_ok, or_full].
    split; cbn [ls_or l_T l_init l_rawb l_val l_root l_child l_copy bdd_or get_root get_child St].
    - unfold bm_rawb. intros m [R1 R2]%andb_true_iff. unfold lor_root, or_root.
      destruct (lf_root _ _ F1 _ R1) as (t1 & -> & V1). cbn [mbind option_bind].
      destruct (Z.ltb_spec (fst (get_root sp1)) 0); [lia|].
      destruct (lf_root _ _ F2 _ R2) as (t2 & -> & V2). cbn [mbind option_bind].
      destruct (Z.ltb_spec (fst (get_root sp2)) 0); [|lia]. eexists. split; [done|]. split; [done|]. by eapply bm_destr.
    - intros m s l b Hv. destruct (or_child_full m s l b Hv) as (m' & Em & Vm). exists m'. split; [done|]. split; [done|].
      by eapply bm_destr_full.
    - apply bm_copy_full.
    - apply bm_destr_full.
  Qed.
  Lemma union_ok : life_ok (zdd_union sp1 sp2) (ls_union sp1 sp2 L1 L2).
  Proof using F1 F2.
    split; cbn [ls_union l_T l_init l_rawb l_val l_root l_child l_copy zdd_union get_root get_child St].
    - unfold bm_rawb. intros m [R1 R2]%andb_true_iff. unfold lun_root, union_root, union_code.
      destruct (lf_root _ _ F1 _ R1) as (t1 & -> & V1). cbn [mbind option_bind].
      destruct (lf_root _ _ F2 _ R2) as (t2 & -> & V2). cbn [mbind option_bind].
      destruct (_ && _).
      { eexists. split; [done|]. split; [done|]. by eapply bm_destr. }
      destruct (_ && _).
      { eexists. split; [done|]. split; [done|]. by eapply bm_destr. }
      eexists. split; [done|]. split; [intros _; cbn [snd]; by apply bval_mk|]. by eapply bm_destr.
    - intros m s l b Hv. destruct (union_child_full m s l b Hv) as (m' & Em & Vm). exists m'. split; [done|]. split; [done|].
      by eapply bm_destr_full.
    - apply bm_copy_full.
    - apply bm_destr_full.
  Qed.

  (** ** intersection *)
  Lemma meet_full k : forall i1 t1 s1 i2 t2 s2, l_val L1 t1 = Some s1 -> l_val L2 t2 = Some s2 -> exists u1 u2,
    lmeet sp1 sp2 L1 L2 k i1 t1 i2 t2 = Some (fst (meet sp1 sp2 k i1 s1 i2 s2), (u1, u2)) /\
    l_val L1 u1 = Some (fst (snd (meet sp1 sp2 k i1 s1 i2 s2))) /\
    l_val L2 u2 = Some (snd (snd (meet sp1 sp2 k i1 s1 i2 s2))).
  Proof using F1 F2.
    induction k as [|k IH]; intros i1 t1 s1 i2 t2 s2 V1 V2; cbn [lmeet meet]; destruct (i1 =? i2); try by exists t1, t2.
    destruct (i2 <? i1).
    - destruct (lf_child _ _ F1 _ _ i1 0%nat V1) as (u1 & -> & W1). cbn [mbind option_bind].
      destruct (_ =? 0); [by exists u1, t2|]. by apply IH.
    - destruct (lf_child _ _ F2 _ _ i2 0%nat V2) as (u2 & -> & W2). cbn [mbind option_bind].
      destruct (_ =? 0); [by exists t1, u2|]. by apply IH.
  Qed.
  Lemma ival_inv (m : imem sp1 sp2 L1 L2) s : l_val (ls_inter sp1 sp2 L1 L2) m = Some s ->
    l_val L1 (fst m) = Some (fst s) /\ l_val L2 (snd m) = Some (snd s).
  Proof.
    destruct m as [t1 t2]. cbn [ls_inter l_val fst snd]. destruct (l_val L1 t1) as [s1|]; cbn [mbind option_bind]; [|done].
    destruct (l_val L2 t2) as [s2|]; cbn [mbind option_bind]; [|done]. by intros [= <-].
  Qed.
  Lemma ival_mk t1 t2 s1 s2 : l_val L1 t1 = Some s1 -> l_val L2 t2 = Some s2 ->
    l_val (ls_inter sp1 sp2 L1 L2) (t1, t2) = Some (s1, s2).
  Proof. intros E1 E2. cbn [ls_inter l_val fst snd]. rewrite E1. cbn [mbind option_bind]. by rewrite E2. Qed.
  Lemma inter_destr t1 t2 s1 s2 : l_val L1 t1 = Some s1 -> l_val L2 t2 = Some s2 ->
    destructible (ls_inter sp1 sp2 L1 L2) (t1, t2).
  Proof using F1 F2.
    intros V1 V2. destruct (lf_destruct _ _ F1 _ _ V1) as (u1 & D1 & R1). destruct (lf_destruct _ _ F2 _ _ V2) as (u2 & D2 & R2).
    unfold destructible. cbn [ls_inter l_destruct l_rawb fst snd]. rewrite D1. cbn [mbind option_bind]. rewrite D2. cbn [mbind option_bind].
    eexists. split; [done|]. cbn [fst snd]. by rewrite R1, R2.
  Qed.
  Lemma inter_child_full m s l b : l_val (ls_inter sp1 sp2 L1 L2) m = Some s -> exists m',
    lint_child sp1 sp2 L1 L2 m l b = Some (fst (inter_child sp1 sp2 s l b), m') /\
    l_val (ls_inter sp1 sp2 L1 L2) m' = Some (snd (inter_child sp1 sp2 s l b)).
  Proof using F1 F2.
    intros [V1 V2]%ival_inv. unfold lint_child, inter_child.
    destruct (lf_child _ _ F1 _ _ l b V1) as (t1 & -> & W1). cbn [mbind option_bind].
    destruct (_ =? 0).
    { eexists. split; [done|]. by apply ival_mk. }
    destruct (lf_child _ _ F2 _ _ l b V2) as (t2 & -> & W2). cbn [mbind option_bind].
    destruct (_ =? 0).
    { eexists. split; [done|]. by apply ival_mk. }
    destruct (meet_full (meet_fuel (fst (get_child sp1 (fst s) l b)) (fst (get_child sp2 (snd s) l b)))
      (fst (get_child sp1 (fst s) l b)) t1 _ (fst (get_child sp2 (snd s) l b)) t2 _ W1 W2) as (u1 & u2 & -> & X1 & X2).
    eexists. split; [done|]. rewrite (ival_mk _ _ _ _ X1 X2). by destruct (snd (meet _ _ _ _ _ _ _)).
  Qed.
  Lemma inter_copy_full to from s : l_rawb (ls_inter sp1 sp2 L1 L2) to = true -> l_val (ls_inter sp1 sp2 L1 L2) from = Some s ->
    exists to', l_copy (ls_inter sp1 sp2 L1 L2) to from = Some to' /\ l_val (ls_inter sp1 sp2 L1 L2) to' = Some s.
  Proof using F1 F2.
    cbn [ls_inter l_rawb l_copy]. intros [R1 R2]%andb_true_iff [V1 V2]%ival_inv.
    destruct (lf_copy _ _ F1 _ _ _ R1 V1) as (t1 & C1 & W1). destruct (lf_copy _ _ F2 _ _ _ R2 V2) as (t2 & C2 & W2).
    rewrite C1. cbn [mbind option_bind]. rewrite C2. cbn [mbind option_bind]. eexists. split; [done|].
    rewrite (ival_mk _ _ _ _ W1 W2). by destruct s.
  Qed.
  Lemma inter_destr_full m s : l_val (ls_inter sp1 sp2 L1 L2) m = Some s -> destructible (ls_inter sp1 sp2 L1 L2) m.
  Proof using F1 F2. intros [V1 V2]%ival_inv. destruct m as [t1 t2]. by eapply inter_destr. Qed.
  Lemma inter_root_full m : fst (get_root sp1) <> 0 -> l_rawb (ls_inter sp1 sp2 L1 L2) m = true -> exists m',
    lint_root sp1 sp2 L1 L2 m = Some (fst (inter_root sp1 sp2), m') /\
    l_val (ls_inter sp1 sp2 L1 L2) m' = Some (snd (inter_root sp1 sp2)).
  Proof using F1 F2.
    cbn [ls_inter l_rawb]. intros N1 [R1 R2]%andb_true_iff. unfold lint_root, inter_root.
    destruct (lf_root _ _ F1 _ R1) as (t1 & -> & V1). cbn [mbind option_bind].
    destruct (Z.eqb_spec (fst (get_root sp1)) 0); [done|].
    destruct (lf_root _ _ F2 _ R2) as (t2 & -> & V2). cbn [mbind option_bind].
    destruct (Z.eqb_spec (fst (get_root sp2)) 0).
    { eexists. split; [done|]. cbn [snd]. by apply ival_mk. }
    destruct (meet_full (meet_fuel (fst (get_root sp1)) (fst (get_root sp2))) (fst (get_root sp1)) t1 _ (fst (get_root sp2)) t2 _ V1 V2)
      as (u1 & u2 & -> & X1 & X2).
    eexists. split; [done|]. rewrite (ival_mk _ _ _ _ X1 X2). by destruct (snd (meet _ _ _ _ _ _ _)).
  Qed.
  Lemma inter_full : fst (get_root sp1) <> 0 -> life_full (zdd_intersection sp1 sp2) (ls_inter sp1 sp2 L1 L2).
  Proof using F1 F2.
    intros N1. split.
    - cbn [ls_inter l_rawb l_init fst snd]. by rewrite (lf_init _ _ F1), (lf_init _ _ F2).
    - intros m Hm. by apply inter_root_full.
    - intros m s l b. apply inter_child_full.
    - apply inter_copy_full.
    - apply inter_destr_full.
  Qed.
End binary.

Section unary.
  Context (sp : spec) (L : lspec (St sp)) (F : life_full sp L).

  Lemma bdd_branches_full level p s w0 s0 bs : l_val L p = Some s -> l_val L w0 = Some s0 ->
    forall w1 level0, l_rawb L w1 = true -> exists stop w0' w1',
    lbdd_branches sp L level level0 p w0 w1 bs = Some (stop, w0', w1') /\ l_rawb L w1' = true /\
    negb stop = forallb (fun b => let r1 := get_child sp s level b in
                           (level0 =? fst r1) && ((level0 <=? 0) || equal_to sp level0 s0 (snd r1))) bs /\
    (if stop then l_rawb L w0' = true else w0' = w0).
  Proof using F.
    intros Vp V0. induction bs as [|b bs IH]; intros w1 level0 R1; cbn [lbdd_branches forallb].
    - by exists false, w0, w1.
    - destruct (lf_copy _ _ F _ _ _ R1 Vp) as (c1 & -> & W1). cbn [mbind option_bind].
      destruct (lf_child _ _ F _ _ level b W1) as (c2 & -> & W2). cbn [mbind option_bind]. cbn zeta.
      set (same := (level0 =? fst (get_child sp s level b)) && ((level0 <=? 0) || equal_to sp level0 s0 (snd (get_child sp s level b)))).
      assert ((if level0 =? fst (get_child sp s level b) then
                  if level0 <=? 0 then Some true
                  else s0 ← l_val L w0; s1 ← l_val L c2; Some (equal_to sp level0 s0 s1)
                else Some false) = Some same) as ->.
      { unfold same. destruct (level0 =? _); [|done]. destruct (level0 <=? 0); [done|]. rewrite V0. cbn [mbind option_bind].
        by rewrite W2. }
      cbn [mbind option_bind]. destruct (lf_destruct _ _ F _ _ W2) as (d1 & D1 & R1').
      destruct same; cbn [negb andb].
      + rewrite D1. cbn [mbind option_bind]. destruct (IH d1 level0 R1') as (stop & w0' & w1' & -> & H1 & H2 & H3).
        by exists stop, w0', w1'.
      + destruct (lf_destruct _ _ F _ _ V0) as (d0 & D0 & R0). rewrite D0. cbn [mbind option_bind]. rewrite D1. cbn [mbind option_bind].
        by exists true, d0, d1.
  Qed.

  Lemma bdd_look_full k : forall level p s w0 w1, l_val L p = Some s -> l_rawb L w0 = true -> l_rawb L w1 = true ->
    exists p' w0' w1', lbdd_look sp L k level p w0 w1 = Some (fst (bdd_look sp k level s), p', w0', w1') /\
      l_val L p' = Some (snd (bdd_look sp k level s)) /\ l_rawb L w0' = true /\ l_rawb L w1' = true.
  Proof using F.
    induction k as [|k IH]; intros level p s w0 w1 Vp R0 R1; cbn [lbdd_look bdd_look]; [by exists p, w0, w1|].
    destruct (1 <=? level); cbn [andb]; [|by exists p, w0, w1].
    destruct (lf_copy _ _ F _ _ _ R0 Vp) as (c0 & -> & W0). cbn [mbind option_bind].
    destruct (lf_child _ _ F _ _ level 0%nat W0) as (c & -> & W). cbn [mbind option_bind].
    destruct (bdd_branches_full level p s c _ (seq 1 (ar sp - 1)) Vp W w1 (fst (get_child sp s level 0)) R1)
      as (stop & w0' & w1' & -> & R1' & Hs & H0). cbn [mbind option_bind].
    change (forallb _ _) with (bdd_redundant sp s level) in Hs. rewrite <- Hs.
    destruct stop; cbn [negb]; [by exists p, w0', w1'|]. subst w0'.
    destruct (lf_destruct _ _ F _ _ Vp) as (d & -> & Rd). cbn [mbind option_bind].
    destruct (lf_copy _ _ F _ _ _ Rd W) as (e & -> & We). cbn [mbind option_bind].
    destruct (lf_destruct _ _ F _ _ W) as (d0 & -> & Rd0). cbn [mbind option_bind].
    by apply IH.
  Qed.
  Lemma bdd_look_at_full c p s : l_val L p = Some s -> exists p',
    lbdd_look_at sp L (c, p) = Some (fst (bdd_look_at sp (c, s)), p') /\ l_val L p' = Some (snd (bdd_look_at sp (c, s))).
  Proof using F.
    intros V. unfold lbdd_look_at, bdd_look_at. cbn [fst snd].
    destruct (bdd_look_full (Z.to_nat c) c p s _ _ V (lf_init _ _ F) (lf_init _ _ F)) as (p' & w0 & w1 & -> & V' & R0 & R1).
    cbn [mbind option_bind]. rewrite R0, R1. by exists p'.
  Qed.
  Lemma bdd_lookahead_full : life_full (bdd_lookahead sp) (ls_bdd_lookahead sp L).
  Proof using F.
    split; cbn [ls_bdd_lookahead l_T l_init l_rawb l_val l_root l_child l_copy bdd_lookahead get_root get_child St]; try apply F.
    - intros m Rm. destruct (lf_root _ _ F _ Rm) as (p & -> & V). cbn [mbind option_bind].
      destruct (bdd_look_at_full (fst (get_root sp)) p _ V) as (p' & -> & V'). exists p'. by destruct (get_root sp).
    - intros m s l b Vm. destruct (lf_child _ _ F _ _ l b Vm) as (p & -> & V). cbn [mbind option_bind].
      destruct (bdd_look_at_full (fst (get_child sp s l b)) p _ V) as (p' & -> & V'). exists p'. by destruct (get_child sp s l b).
  Qed.

  Lemma zdd_branches_full level p s bs : l_val L p = Some s ->
    forall q, l_rawb L q = true -> exists stop q',
    lzdd_branches sp L level p q bs = Some (stop, q') /\ l_rawb L q' = true /\
    negb stop = forallb (fun b => fst (get_child sp s level b) =? 0) bs.
  Proof using F.
    intros Vp. induction bs as [|b bs IH]; intros q R1; cbn [lzdd_branches forallb].
    - by exists false, q.
    - destruct (lf_copy _ _ F _ _ _ R1 Vp) as (c1 & -> & W1). cbn [mbind option_bind].
      destruct (lf_child _ _ F _ _ level b W1) as (c2 & -> & W2). cbn [mbind option_bind].
      destruct (lf_destruct _ _ F _ _ W2) as (d1 & -> & R1'). cbn [mbind option_bind].
      destruct (_ =? 0); cbn [negb andb]; [by apply IH|]. by exists true, d1.
  Qed.
  Lemma zdd_look_full k : forall level p s q, l_val L p = Some s -> l_rawb L q = true ->
    exists p' q', lzdd_look sp L k level p q = Some (fst (zdd_look sp k level s), p', q') /\
      l_val L p' = Some (snd (zdd_look sp k level s)) /\ l_rawb L q' = true.
  Proof using F.
    induction k as [|k IH]; intros level p s q Vp R; cbn [lzdd_look zdd_look]; [by exists p, q|].
    destruct (1 <=? level); cbn [andb]; [|by exists p, q].
    destruct (zdd_branches_full level p s (seq 1 (ar sp - 1)) Vp q R) as (stop & q' & -> & R' & Hs). cbn [mbind option_bind].
    change (forallb _ _) with (zdd_redundant sp s level) in Hs. rewrite <- Hs.
    destruct stop; cbn [negb]; [by exists p, q'|].
    destruct (lf_child _ _ F _ _ level 0%nat Vp) as (c & -> & W). cbn [mbind option_bind]. by apply IH.
  Qed.
  Lemma zdd_look_at_full c p s : l_val L p = Some s -> exists p',
    lzdd_look_at sp L (c, p) = Some (fst (zdd_look_at sp (c, s)), p') /\ l_val L p' = Some (snd (zdd_look_at sp (c, s))).
  Proof using F.
    intros V. unfold lzdd_look_at, zdd_look_at. cbn [fst snd].
    destruct (zdd_look_full (Z.to_nat c) c p s _ V (lf_init _ _ F)) as (p' & q & -> & V' & R).
    cbn [mbind option_bind]. rewrite R. by exists p'.
  Qed.
  Lemma zdd_lookahead_full : life_full (zdd_lookahead sp) (ls_zdd_lookahead sp L).
  Proof using F.
    split; cbn [ls_zdd_lookahead l_T l_init l_rawb l_val l_root l_child l_copy zdd_lookahead get_root get_child St]; try apply F.
    - intros m Rm. destruct (lf_root _ _ F _ Rm) as (p & -> & V). cbn [mbind option_bind].
      destruct (zdd_look_at_full (fst (get_root sp)) p _ V) as (p' & -> & V'). exists p'. by destruct (get_root sp).
    - intros m s l b Vm. destruct (lf_child _ _ F _ _ l b Vm) as (p & -> & V). cbn [mbind option_bind].
      destruct (zdd_look_at_full (fst (get_child sp s l b)) p _ V) as (p' & -> & V'). exists p'. by destruct (get_child sp s l b).
  Qed.

  Lemma unreduction_full zdd nv : life_full (unreduction sp zdd nv) (ls_unreduction sp L zdd nv).
  Proof using F.
    assert (forall (m : umem sp L) s, (lv ← fst m; s ← l_val L (snd m); Some (lv, s)) = Some s ->
      fst m = Some (fst s) /\ l_val L (snd m) = Some (snd s)) as Hinv.
    { intros [[lv|] t] s; cbn [fst snd mbind option_bind]; [|done]. destruct (l_val L t); cbn [mbind option_bind]; [|done].
      by intros [= <-]. }
    split; cbn [ls_unreduction l_T l_init l_rawb l_val l_root l_child l_copy l_destruct unreduction get_root get_child St fst snd].
    - apply F.
    - intros m Rm. unfold lun_root1, unred_root. destruct (lf_root _ _ F _ Rm) as (t & -> & V). cbn [mbind option_bind].
      destruct (Z.eqb_spec (fst (get_root sp)) 0) as [E|E].
      + eexists. split; [done|]. cbn [fst snd mbind option_bind]. rewrite V. cbn [mbind option_bind]. by destruct (get_root sp).
      + eexists. split; [done|]. cbn [fst snd mbind option_bind]. rewrite V. cbn [mbind option_bind]. by destruct (get_root sp).
    - intros m s i b [E V]%Hinv. unfold lun_child1, unred_child. rewrite E. cbn [mbind option_bind].
      destruct (fst s =? i).
      + destruct (lf_child _ _ F _ _ i b V) as (t & -> & W). cbn [mbind option_bind].
        destruct (Z.eqb_spec (fst (get_child sp (snd s) i b)) 0) as [E0|E0].
        * eexists. split; [done|]. cbn [fst snd mbind option_bind]. rewrite W. cbn [mbind option_bind]. by destruct (get_child sp (snd s) i b).
        * eexists. split; [done|]. cbn [fst snd mbind option_bind]. rewrite W. cbn [mbind option_bind]. by destruct (get_child sp (snd s) i b).
      + destruct (_ && _).
        * eexists. split; [done|]. rewrite E, V. cbn [mbind option_bind snd]. by destruct s.
        * eexists. split; [done|]. rewrite E, V. cbn [mbind option_bind snd]. by destruct s.
    - intros to from s Rt [E V]%Hinv. destruct (lf_copy _ _ F _ _ _ Rt V) as (t & -> & W). cbn [mbind option_bind].
      eexists. split; [done|]. cbn [fst snd]. rewrite E. cbn [mbind option_bind]. rewrite W. cbn [mbind option_bind]. by destruct s.
    - intros m s [E V]%Hinv. destruct (lf_destruct _ _ F _ _ V) as (t & D & R).
      exists (fst m, t). cbn [ls_unreduction l_destruct l_rawb snd]. rewrite D. done.
  Qed.
End unary.
