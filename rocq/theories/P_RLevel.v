(** What one level of a reduction must produce, and why producing it at every level reduces the diagram. *)
From Verif Require Import Base Sem M_Table Tree P_Red M_Index P_Index.

Definition delc (m : rmode) (p : node) : bool :=
  match m with
  | RB => forallb (fun g => neqb g (nth 0 p n0)) (tail p)
  | RZ => forallb (fun g => neqb g n0) (tail p)
  | RQ => forallb (fun g => neqb g n0) p
  | RN => false
  end.

(** [cans]: the canonical nodes of the level; [ids]: their new identifiers; [outrow]: the new row. *)
Record lcontract (m : rmode) (i : nat) (cans : list node) (ids : list nid) (outrow : list node) : Prop := {
  lc_len : length ids = length cans;
  lc_id : forall j p, cans !! j = Some p -> exists f, ids !! j = Some f /\
    if delc m p then p !! 0 = Some f
    else row f = i /\ (exists q, outrow !! col f = Some q /\ map code q = map code p) /\
         exists j' p' g, cans !! j' = Some p' /\ map code p' = map code p /\ p' !! 0 = Some g /\ attr f = hasEmpty g;
  lc_out : forall k q, outrow !! k = Some q -> q ∈ cans /\ delc m q = false;
  lc_uniq : forall k k' q q', outrow !! k = Some q -> outrow !! k' = Some q' ->
    map code q = map code q' -> k = k'
}.

Lemma list_eq_lk {A} (l k : list A) : length l = length k ->
  (forall i x y, l !! i = Some x -> k !! i = Some y -> x = y) -> l = k.
Proof. intros Hl H. eapply list_eq_same_length; [done|done|]. intros i x y _. apply H. Qed.

(** references to the 0-terminal carry no attribute *)
Definition clean (t : table) : Prop :=
  forall i c b g, 0 < i -> child t (mk i c) b = Some g -> code g = (0, 0) -> attr g = false.

Lemma tget_insert_ne t i x f : row f <> i -> tget (<[i := x]> t) f = tget t f.
Proof. intros H. unfold tget. by rewrite list_lookup_insert_ne by congruence. Qed.
Lemma tget_insert_eq t i x c : i < length t -> tget (<[i := x]> t) (mk i c) = x !! c.
Proof. intros H. unfold tget. simpl. by rewrite list_lookup_insert. Qed.

Lemma hasEmpty_code f g : code f = code g -> attr f = attr g -> hasEmpty f = hasEmpty g.
Proof. destruct f, g. unfold code. simpl. intros [= -> ->] ->. done. Qed.

Lemma hasEmpty_node f : 0 < row f -> hasEmpty f = attr f.
Proof.
  intros H. unfold hasEmpty, neqb. simpl. destruct (Nat.eqb_spec (row f) 0); [lia|]. done.
Qed.

Lemma hasEmpty_term t g S : rep t g S -> row g = 0 -> (code g = (0, 0) -> attr g = false) -> hasEmpty g = tz S.
Proof.
  intros HS E Hat. unfold hasEmpty, neqb. inversion HS; subst; try lia.
  - rewrite Hat; [|unfold code; congruence]. rewrite H, H0. done.
  - rewrite H, H0. simpl. by destruct (attr g).
Qed.

Section level.
  Context (a : nat) (Ha : 0 < a) (m : rmode) (t : table) (Hwf : table_wf a t).
  Notation N := (length t).

  Definition cok (o : table) (g f : nid) : Prop :=
    exists S, rep t g S /\ rep o f (red m S) /\ (clean t -> hasEmpty f = tz S).
  Definition canned (o : table) (x : list node) (cans : list node) : Prop :=
    Forall2 (Forall2 (cok o)) x cans.
  Definition good (o : table) (ids : list (list nid)) (r : nat) : Prop :=
    exists l, ids !! r = Some l /\
      forall c S, rep t (mk r c) S -> exists f, l !! c = Some f /\ rep o f (red m S) /\ (clean t -> hasEmpty f = tz S).

  Record oinv (i : nat) (o : table) : Prop := {
    oi_len : length o = N;
    oi_wf : table_wf a o;
    oi_hi : forall r, i < r -> r < N -> o !! r = Some [];
    oi_uniq : forall f g T, rep o f T -> rep o g T -> code f = code g;
    oi_norm : forall f T, rep o f T -> red m T = T;
    oi_src : forall f T, rep o f T -> 0 < row f -> exists j S, rep t (mk (row f) j) S /\ red m S = T;
    oi_attr : clean t -> forall f b g T, 0 < row f -> child o f b = Some g -> rep o g T -> hasEmpty g = tz T;
    oi_size : forall r x y, 0 < r -> o !! r = Some x -> t !! r = Some y -> length x <= length y;
    oi_all : forall r j S, 0 < r <= i -> rep t (mk r j) S -> exists f, rep o f (red m S)
  }.

  Lemma wf_node i x j p : t !! i = Some x -> x !! j = Some p -> length p = a.
  Proof. apply (wf_arity a t Hwf). Qed.

  (** trees and codes *)
  Lemma uniq_codes o p q ts : (forall f g T, rep o f T -> rep o g T -> code f = code g) ->
    Forall2 (rep o) p ts -> Forall2 (rep o) q ts -> map code p = map code q.
  Proof.
    intros Hu Hp. revert q. induction Hp as [|g T p ts Hg Hp IH]; intros q Hq; inversion Hq; subst; [done|].
    simpl. f_equal; [by eapply Hu|by apply IH].
  Qed.
  Lemma codes_trees o p q ts : map code p = map code q -> Forall2 (rep o) p ts -> Forall2 (rep o) q ts.
  Proof.
    intros H Hp. revert q H. induction Hp as [|g T p ts Hg Hp IH]; intros q H; destruct q as [|f q]; try done.
    simpl in H. injection H as H1 H2 H3. constructor; [|by apply IH].
    apply (rep_code o g f T); [unfold code; congruence|done].
  Qed.

  Lemma neqb_trees o f g T S : (forall f g T, rep o f T -> rep o g T -> code f = code g) ->
    rep o f T -> rep o g S -> neqb f g = bool_decide (T = S).
  Proof.
    intros Hu Hf Hg. destruct (neqb f g) eqn:E.
    - apply neqb_true in E. symmetry. apply bool_decide_eq_true. eapply rep_det; [|done]. by apply (rep_code o f g).
    - apply neqb_false in E. symmetry. apply bool_decide_eq_false. intros ->. apply E. by eapply Hu.
  Qed.

  Lemma delc_delT o p ts : (forall f g T, rep o f T -> rep o g T -> code f = code g) ->
    0 < length p -> Forall2 (rep o) p ts -> delc m p = delT m ts.
  Proof.
    intros Hu Hl HF.
    assert (forall (f : nid) S p ts, rep o f S -> Forall2 (rep o) p ts ->
       forallb (fun g => neqb g f) p = forallb (fun T => bool_decide (T = S)) ts) as Hfb.
    { intros f S p' ts' HS HF'. induction HF' as [|g T p' ts' Hg HF' IH]; [done|]. simpl. f_equal; [|done].
      by apply (neqb_trees o). }
    assert (rep o n0 T0) as R0 by (by apply rep_0).
    destruct HF as [|g T p ts Hg HF]; [simpl in Hl; lia|]. destruct m; simpl.
    - by apply Hfb.
    - by apply Hfb.
    - unfold all0. simpl. f_equal; [by apply (neqb_trees o)|]. by apply Hfb.
    - done.
  Qed.

  Lemma delc_code p q : map code p = map code q -> delc m p = delc m q.
  Proof.
    intros H. assert (forall (f f' : nid) p q, code f = code f' -> map code p = map code q ->
      forallb (fun g => neqb g f) p = forallb (fun g => neqb g f') q) as Hfb.
    { intros f f' p' q' Hf. revert q'. induction p' as [|g p' IH]; intros [|g' q'] Hpq; try done.
      simpl in *. injection Hpq as H1 H2 H3. f_equal; [|by apply IH].
      injection Hf as H4 H5. unfold neqb. congruence. }
    destruct p as [|g p], q as [|g' q]; try done. simpl in H. injection H as H1 H2 H3.
    assert (neqb g n0 = neqb g' n0) as E0 by (unfold neqb; congruence).
    destruct m; simpl.
    - apply Hfb; [unfold code; congruence|done].
    - by apply Hfb.
    - f_equal; [done|]. by apply Hfb.
    - done.
  Qed.

  Section step.
    Context (i : nat) (o : table) (Hi : 0 < i < N) (HO : oinv (i - 1) o)
      (x : list node) (Hx : t !! i = Some x) (cans : list node) (Hc : canned o x cans)
      (ids : list nid) (outrow : list node) (HL : lcontract m i cans ids outrow).
    Notation o' := (<[i := outrow]> o).

    Lemma row_i_empty : o !! i = Some [].
    Proof. apply (oi_hi _ _ HO); lia. Qed.
    Lemma len_o : i < length o.
    Proof. rewrite (oi_len _ _ HO). lia. Qed.

    Lemma rep_mono f T : rep o f T -> rep o' f T.
    Proof.
      revert f. induction T as [| |l ts IH] using tree_ind'; intros f H.
      - inversion H; subst. by apply rep_0.
      - inversion H; subst. by apply rep_1.
      - inversion H as [| |f' p ts' Hr Hg HF Hlt]; subst. econstructor; [done| | |done].
        + rewrite tget_insert_ne; [exact Hg|]. intros E. unfold tget in Hg. rewrite E, row_i_empty in Hg. done.
        + clear -IH HF. induction HF as [|g T p ts Hg HF IHF]; [constructor|]. inversion IH; subst.
          constructor; [auto|]. by apply IHF.
    Qed.
    Lemma rep_row f T : rep o f T -> row f < i.
    Proof.
      intros H. destruct (decide (row f = 0)); [lia|]. pose proof (rep_valid _ _ _ H) as Hv. unfold valid in Hv.
      destruct (Nat.eqb_spec (row f) 0); [done|]. destruct Hv as [p Hp]. unfold tget in Hp.
      destruct (decide (row f < i)); [done|]. destruct (o !! row f) as [r|] eqn:E; [|done].
      rewrite (oi_hi _ _ HO) in E; [|lia|].
      - inversion E; subst. done.
      - rewrite <- (oi_len _ _ HO). by eapply lookup_lt_Some.
    Qed.
    Lemma rep_back f T : rep o' f T -> row f < i -> rep o f T.
    Proof.
      revert f. induction T as [| |l ts IH] using tree_ind'; intros f H Hlt.
      - inversion H; subst. by apply rep_0.
      - inversion H; subst. by apply rep_1.
      - inversion H as [| |f' p ts' Hr Hg HF Hlt']; subst. econstructor; [done| | |done].
        + rewrite tget_insert_ne in Hg; [done|lia].
        + assert (Forall (fun g => row g < i) p) as Hpi by (eapply Forall_impl; [exact Hlt'|simpl; lia]).
          clear -IH HF Hpi. induction HF as [|g T p ts Hg HF IHF]; [constructor|]. inversion IH; subst. inversion Hpi; subst.
          constructor; [auto|]. by apply IHF.
    Qed.
    Lemma rep_row' f T : rep o' f T -> row f <= i.
    Proof.
      intros H. destruct (decide (row f <= i)); [done|]. pose proof (rep_valid _ _ _ H) as Hv. unfold valid in Hv.
      destruct (Nat.eqb_spec (row f) 0); [lia|]. destruct Hv as [p Hp]. rewrite tget_insert_ne in Hp by lia. unfold tget in Hp.
      destruct (o !! row f) as [r|] eqn:E; [|done].
      rewrite (oi_hi _ _ HO) in E; [|lia|].
      - inversion E; subst. done.
      - rewrite <- (oi_len _ _ HO). by eapply lookup_lt_Some.
    Qed.

    (** nodes of the new row *)
    Lemma can_src q : q ∈ cans -> exists j p Ss, x !! j = Some p /\ cans !! j = Some q /\ length q = a /\
      Forall2 (rep t) p Ss /\ Forall2 (rep o) q (map (red m) Ss) /\
      rep t (mk i j) (TN i Ss) /\ (clean t -> Forall2 (fun f S => hasEmpty f = tz S) q Ss).
    Proof.
      intros Hq. apply elem_of_list_lookup in Hq as [j Hj].
      destruct (Forall2_lookup_r _ _ _ _ _ Hc Hj) as (p & Hp & HF).
      assert (exists Ss, Forall2 (rep t) p Ss /\ Forall2 (rep o) q (map (red m) Ss) /\ (clean t -> Forall2 (fun f S => hasEmpty f = tz S) q Ss))
        as (Ss & F1 & F2 & F3).
      { clear -HF. induction HF as [|g f p q (S & S1 & S2 & S3) HF (Ss & F1 & F2 & F3)].
        - exists []. split_and!; [constructor..|]. intros _. constructor.
        - exists (S :: Ss). split_and!; simpl; [by constructor..|]. intros Hcl. constructor; auto. }
      exists j, p, Ss. split_and!; try done.
      - rewrite <- (Forall2_length _ _ _ HF). by eapply wf_node.
      - apply (rep_N t (mk i j) p Ss); simpl; [lia| |done|].
        + unfold tget. simpl. rewrite Hx. done.
        + apply Forall_lookup. intros b g Hg. by destruct (wf_child a t Hwf i x j p b g ltac:(lia) Hx Hp Hg).
    Qed.

    Lemma tget_i c : tget o' (mk i c) = outrow !! c.
    Proof. apply tget_insert_eq, len_o. Qed.
    Lemma tget_i' f : row f = i -> tget o' f = outrow !! col f.
    Proof. intros E. rewrite <- (tget_i (col f)). apply tget_code. unfold code. simpl. by rewrite E. Qed.

    Lemma out_node k q : outrow !! k = Some q -> exists ts, Forall2 (rep o) q ts /\
      Forall (fun g => row g < i) q /\ delT m ts = false /\ rep o' (mk i k) (TN i ts) /\ length q = a.
    Proof.
      intros Hk. destruct (lc_out _ _ _ _ _ HL k q Hk) as [Hq Hd].
      destruct (can_src q Hq) as (j & p & Ss & _ & _ & Hl & F1 & F2 & _ & _).
      assert (Forall (fun g => row g < i) q) as Hrows.
      { apply Forall_lookup. intros b g Hg. destruct (Forall2_lookup_l _ _ _ _ _ F2 Hg) as (T & _ & HT). by eapply rep_row. }
      exists (map (red m) Ss). split_and!; try done.
      - rewrite <- (delc_delT o q) by (first [lia|apply (oi_uniq _ _ HO)|done]). done.
      - apply (rep_N o' (mk i k) q); simpl; [lia|by rewrite tget_i| |done].
        eapply Forall2_impl; [exact F2|]. intros ? ? ?. by apply rep_mono.
    Qed.

    Lemma rep_i f T : rep o' f T -> row f = i -> exists q ts, outrow !! col f = Some q /\ T = TN i ts /\ Forall2 (rep o) q ts /\ delT m ts = false.
    Proof.
      intros H E. inversion H as [f' H1|f' H1|f' p ts Hr Hg HF Hlt]; subst f'; try lia.
      rewrite tget_i' in Hg by done. destruct (out_node _ _ Hg) as (ts' & F & _ & Hd & _ & _).
      exists p, ts. rewrite E. split_and!; [done..| |].
      - apply Forall2_same_length_lookup_2; [by eapply Forall2_length|]. intros b g S Hb HS.
        apply rep_back; [by eapply (Forall2_lookup_lr _ _ _ _ _ _ HF)|].
        rewrite <- E. by apply (Forall_lookup_1 _ _ _ _ Hlt) in Hb.
      - assert (ts = ts') as ->; [|done]. apply list_eq_lk; [rewrite <- (Forall2_length _ _ _ HF); by eapply Forall2_length|].
        intros b S S' HS HS'. destruct (Forall2_lookup_r _ _ _ _ _ HF HS) as (g & Hb & HgS).
        eapply rep_det; [exact HgS|]. apply rep_mono. by eapply (Forall2_lookup_lr _ _ _ _ _ _ F).
    Qed.

    Lemma step_good c S : rep t (mk i c) S -> exists f, ids !! c = Some f /\ rep o' f (red m S) /\ (clean t -> hasEmpty f = tz S).
    Proof.
      intros HS. inversion HS as [f' H1|f' H1|f' p ts Hr Hg HF Hlt]; subst f'; cbn [row col mk] in *; try lia.
      unfold tget in Hg. cbn [row col mk] in Hg. rewrite Hx in Hg. cbn [mbind option_bind] in Hg.
      destruct (Forall2_lookup_l _ _ _ _ _ Hc Hg) as (p' & Hp' & Hpp).
      assert (Forall2 (fun f T => rep o f (red m T) /\ (clean t -> hasEmpty f = tz T)) p' ts) as HF'.
      { clear -Hpp HF. revert ts HF. induction Hpp as [|g f p p' (S & S1 & S2 & S3) Hpp IH]; intros ts HF; inversion HF; subst; [constructor|].
        constructor; [|by apply IH]. match goal with H : rep t g ?T |- _ => pose proof (rep_det _ _ _ _ S1 H); subst end. done. }
      assert (Forall2 (rep o) p' (map (red m) ts)) as HFr.
      { apply Forall2_fmap_r. eapply Forall2_impl; [exact HF'|]. intros ? ? [? _]. done. }
      assert (length p' = a) as Hla.
      { rewrite <- (Forall2_length _ _ _ Hpp). by eapply wf_node. }
      pose proof (delc_delT o p' _ (oi_uniq _ _ HO) ltac:(lia) HFr) as Hdd.
      destruct (lc_id _ _ _ _ _ HL c p' Hp') as (f & Hf & Hcase). exists f. split; [done|].
      cbn [red]. unfold redN. rewrite <- Hdd. destruct (delc m p').
      - destruct (Forall2_lookup_l _ _ _ _ _ HF' Hcase) as (T & HT & H1 & H2).
        rewrite nth_map_T0 by done. assert (nth 0 ts T0 = T) as -> by (by apply nth_lookup_Some).
        split; [by apply rep_mono|]. intros Hcl. rewrite tz_node. rewrite H2 by done.
        by rewrite (nth_lookup_Some ts 0 T0 T HT).
      - destruct Hcase as (E & (q & Hq & Hcq) & (j' & p2 & g & Hp2 & Hc2 & Hg2 & Hat)).
        destruct (out_node _ _ Hq) as (ts' & F & Hrows & _ & Hrep & _).
        assert (map (red m) ts = ts') as ->.
        { pose proof (codes_trees o q p' ts' Hcq F) as F3.
          apply list_eq_lk; [rewrite <- (Forall2_length _ _ _ HFr); by eapply Forall2_length|].
          intros b S1 S2 HS' HS2. destruct (Forall2_lookup_r _ _ _ _ _ HFr HS') as (h & Hb & Hh).
          eapply rep_det; [exact Hh|]. by eapply (Forall2_lookup_lr _ _ _ _ _ _ F3). }
        split.
        + apply (rep_code _ (mk i (col f))); [|done]. unfold code. simpl. by rewrite E.
        + intros Hcl. rewrite hasEmpty_node by lia. rewrite Hat, tz_node.
          destruct (can_src p2 ltac:(by eapply elem_of_list_lookup_2)) as (_ & _ & Ss & _ & _ & _ & _ & G2 & _ & G3).
          specialize (G3 Hcl). destruct (Forall2_lookup_l _ _ _ _ _ G3 Hg2) as (S0 & HS0 & ->).
          destruct ts as [|T ts]. { inversion HF'; subst. simpl in Hla. lia. }
          simpl. inversion HF' as [|h T' p3 ts3 [R1 R2] HF3]; subst.
          rewrite <- (tz_red m S0), <- (tz_red m T). f_equal.
          assert (rep o g (red m S0)) as Hrg. { eapply (Forall2_lookup_lr _ _ _ 0 _ _ G2 Hg2). rewrite list_lookup_fmap, HS0. done. }
          destruct p2 as [|g2 p2]; [done|]. simpl in Hg2. inversion Hg2; subst g2. simpl in Hc2. injection Hc2 as C1 C2 C3.
          eapply rep_det; [exact Hrg|]. apply (rep_code o h g); [unfold code; congruence|done].
    Qed.

    Lemma len_out : length outrow <= length x.
    Proof.
      rewrite (Forall2_length _ _ _ Hc). 
      assert (NoDup outrow) as Hnd.
      { apply NoDup_alt. intros k k' q H1 H2. by eapply (lc_uniq _ _ _ _ _ HL). }
      apply submseteq_length, NoDup_submseteq; [done|]. intros q Hq. apply elem_of_list_lookup in Hq as [k Hk].
      by destruct (lc_out _ _ _ _ _ HL k q Hk).
    Qed.

    Lemma lookup_o' r y : o' !! r = Some y -> (r = i /\ y = outrow) \/ (r <> i /\ o !! r = Some y).
    Proof.
      intros H. destruct (decide (r = i)) as [->|Hne].
      - rewrite list_lookup_insert in H by apply len_o. left. by inversion H.
      - right. by rewrite list_lookup_insert_ne in H by done.
    Qed.

    Lemma valid_mono f : valid o f -> valid o' f.
    Proof.
      unfold valid. destruct (Nat.eqb_spec (row f) 0) as [E|E]; [done|]. intros [p Hp].
      rewrite tget_insert_ne; [by exists p|]. intros E'. unfold tget in Hp. rewrite E', row_i_empty in Hp. done.
    Qed.

    Lemma step_oinv : oinv i o'.
    Proof.
      constructor.
      - rewrite insert_length. apply HO.
      - pose proof (oi_wf _ _ HO) as W. constructor.
        + rewrite list_lookup_insert_ne by lia. apply (wf_term _ _ W).
        + intros r y j p Hy Hj. apply lookup_o' in Hy as [[-> ->]|[_ Hy]].
          * by destruct (out_node _ _ Hj) as (? & ? & ? & ? & ? & ?).
          * by eapply (wf_arity _ _ W).
        + intros r y j p b g Hr Hy Hj Hb. apply lookup_o' in Hy as [[-> ->]|[_ Hy]].
          * destruct (out_node _ _ Hj) as (ts & F & Hrow & _). split; [by apply (Forall_lookup_1 _ _ _ _ Hrow) in Hb|].
            destruct (Forall2_lookup_l _ _ _ _ _ F Hb) as (T & _ & HT). by apply valid_mono, (rep_valid o g T).
          * destruct (wf_child _ _ W _ _ _ _ _ _ Hr Hy Hj Hb). split; [done|]. by apply valid_mono.
      - intros r H1 H2. rewrite list_lookup_insert_ne by lia. apply (oi_hi _ _ HO); lia.
      - intros f g T Hf Hg.
        assert (row f = row g) as Erow by (rewrite <- (rep_lev _ _ _ Hf); by apply rep_lev in Hg).
        pose proof (rep_row' _ _ Hf) as Hle. destruct (decide (row f = i)) as [E|E].
        + destruct (rep_i _ _ Hf E) as (q & ts & Hq & -> & F & _).
          destruct (rep_i _ _ Hg ltac:(lia)) as (q' & ts' & Hq' & [= ->] & F' & _).
          unfold code. rewrite Erow. f_equal. eapply (lc_uniq _ _ _ _ _ HL); [done..|].
          by eapply uniq_codes; [apply (oi_uniq _ _ HO)|..].
        + eapply (oi_uniq _ _ HO); eapply rep_back; try done; lia.
      - intros f T Hf. pose proof (rep_row' _ _ Hf) as Hle. destruct (decide (row f = i)) as [E|E].
        + destruct (rep_i _ _ Hf E) as (q & ts & Hq & -> & F & Hd). cbn [red].
          assert (map (red m) ts = ts) as Em.
          { clear -F HO. induction F as [|g T q ts Hg F IH]; [done|]. simpl. f_equal; [by eapply (oi_norm _ _ HO)|done]. }
          rewrite Em. unfold redN. by rewrite Hd.
        + eapply (oi_norm _ _ HO). apply rep_back; [done|lia].
      - intros f T Hf Hpos. pose proof (rep_row' _ _ Hf) as Hle. destruct (decide (row f = i)) as [E|E].
        + destruct (rep_i _ _ Hf E) as (q & ts & Hq & -> & F & Hd). rewrite E.
          destruct (lc_out _ _ _ _ _ HL _ _ Hq) as [Hqc _]. destruct (can_src q Hqc) as (j & p & Ss & _ & _ & _ & _ & G2 & G4 & _).
          exists j, (TN i Ss). split; [done|]. cbn [red].
          assert (map (red m) Ss = ts) as ->; [|unfold redN; by rewrite Hd].
          apply list_eq_lk; [rewrite <- (Forall2_length _ _ _ G2); by eapply Forall2_length|].
          intros b S S' HS HS'. destruct (Forall2_lookup_r _ _ _ _ _ G2 HS) as (h & Hb & Hh).
          eapply rep_det; [exact Hh|]. by eapply (Forall2_lookup_lr _ _ _ _ _ _ F).
        + eapply (oi_src _ _ HO); [|done]. apply rep_back; [done|lia].
      - intros Hcl f b g T Hpos Hch HT. unfold child in Hch.
        destruct (tget o' f) as [q|] eqn:Hq; [|done]. simpl in Hch.
        destruct (decide (row f = i)) as [E|E].
        + rewrite tget_i' in Hq by done. destruct (lc_out _ _ _ _ _ HL _ _ Hq) as [Hqc _].
          destruct (can_src q Hqc) as (j & p & Ss & _ & _ & _ & _ & G2 & _ & G3). specialize (G3 Hcl).
          destruct (Forall2_lookup_l _ _ _ _ _ G3 Hch) as (S & HS & ->).
          rewrite <- (tz_red m S). f_equal. eapply rep_det; [|exact HT]. apply rep_mono.
          eapply (Forall2_lookup_lr _ _ _ _ _ _ G2 Hch). rewrite list_lookup_fmap, HS. done.
        + rewrite tget_insert_ne in Hq by done. eapply (oi_attr _ _ HO Hcl f b); [done|unfold child; by rewrite Hq|].
          apply rep_back; [done|]. unfold tget in Hq. destruct (o !! row f) as [y|] eqn:Hy; [|done]. simpl in Hq.
          destruct (wf_child _ _ (oi_wf _ _ HO) _ _ _ _ _ _ Hpos Hy Hq Hch) as [Hlt _].
          destruct (decide (row f < i)); [lia|]. rewrite (oi_hi _ _ HO) in Hy; [by inversion Hy; subst|lia|].
          rewrite <- (oi_len _ _ HO). by eapply lookup_lt_Some.
      - intros r y z Hr Hy Hz. apply lookup_o' in Hy as [[-> ->]|[_ Hy]].
        + assert (z = x) as -> by congruence. apply len_out.
        + by eapply (oi_size _ _ HO).
      - intros r j S Hr HS. destruct (decide (r = i)) as [->|Hne].
        + destruct (step_good _ _ HS) as (f & _ & ? & _). by exists f.
        + destruct (oi_all _ _ HO r j S ltac:(lia) HS) as (f & Hf). exists f. by apply rep_mono.
    Qed.
  End step.

  Lemma oinv_init : oinv 0 (terminal_row a :: replicate (N - 1) []).
  Proof.
    assert (0 < N) as HN. { destruct (wf_term a t Hwf) as (r & Hr & _). by apply lookup_lt_Some in Hr. }
    set (o := terminal_row a :: replicate (N - 1) []).
    assert (forall i y, 0 < i -> o !! i = Some y -> y = []) as Hemp.
    { intros [|i] y Hi Hy; [lia|]. simpl in Hy. by apply lookup_replicate in Hy as [-> _]. }
    assert (forall f T, rep o f T -> row f = 0) as Hrow.
    { intros f T H. inversion H as [| |f' p ts Hr Hg HF Hlt]; subst; try done. exfalso.
      unfold tget in Hg. destruct (o !! row f) as [y|] eqn:Hy; [|done]. apply Hemp in Hy; [|done]. by subst. }
    constructor.
    - unfold o. simpl. rewrite replicate_length. lia.
    - constructor.
      + exists (terminal_row a). split; [done|]. split; [done|]. unfold terminal_row. repeat constructor; apply replicate_length.
      + intros [|i] r j p Hr Hj.
        * simpl in Hr. inversion Hr; subst. unfold terminal_row in Hj.
          destruct j as [|[|j]]; simpl in Hj; inversion Hj; apply replicate_length.
        * apply Hemp in Hr; [|lia]. by subst.
      + intros i r j p b g Hi Hr Hj. apply Hemp in Hr; [|lia]. by subst.
    - intros r H1 H2. destruct r as [|r]; [lia|]. unfold o. simpl. apply lookup_replicate. split; [done|lia].
    - intros f g T Hf Hg. pose proof (Hrow _ _ Hf) as E1. pose proof (Hrow _ _ Hg) as E2.
      unfold code. rewrite E1, E2. f_equal. inversion Hf; subst; inversion Hg; subst; try congruence; lia.
    - intros f T Hf. pose proof (Hrow _ _ Hf) as E1. inversion Hf; subst; try done; lia.
    - intros f T Hf Hpos. pose proof (Hrow _ _ Hf). lia.
    - intros _ f b g T Hpos Hch. unfold child, tget in Hch. destruct (o !! row f) as [y|] eqn:Hy; [|done].
      apply Hemp in Hy; [|done]. by subst.
    - intros r y z Hr Hy _. apply Hemp in Hy; [|done]. subst. simpl. lia.
    - intros r j S Hr. lia.
  Qed.

  Lemma good_terminal o ids : ids !! 0 = Some [n0; n1] -> good o ids 0.
  Proof.
    intros H. exists [n0; n1]. split; [done|]. intros c S HS. inversion HS; simpl in *; subst; try lia.
    - exists n0. split_and!; [done|by apply rep_0|done].
    - exists n1. split_and!; [done|by apply rep_1|done].
  Qed.
End level.
