(** Pass 2 of the builder with merge_states: the recorded branches to the 1-terminal. *)
From Verif Require Import Base M_Table Tree M_Hash P_Hash M_Sweeper M_Engine P_Sweep P_Pass P_Pass2 P_Core P_Upd P_Level M_Merge P_Merge1.
Local Open Scope nat_scope.

Global Instance nbi_eq_dec : EqDecision nbi.
Proof. solve_decision. Defined.

Definition is1 (g : nid) : Prop := code g = (0, 1).
Global Instance is1_dec g : Decision (is1 g).
Proof. unfold is1. apply _. Defined.

Lemma zero_ones_ok osrc : forall t,
  (forall x, x ∈ osrc -> is_Some (child t (mk (nb_row x) (nb_col x)) (nb_val x))) ->
  exists t', zero_ones osrc t = Some t' /\ shape t' = shape t /\
    forall r c b, child t' (mk r c) b = if bool_decide (Nb r c b ∈ osrc) then Some n0 else child t (mk r c) b.
Proof.
  induction osrc as [|[r0 c0 b0] osrc IH]; intros t H.
  - exists t. split_and!; try done. 
  - unfold zero_ones. cbn [ofold nb_row nb_col nb_val].
    destruct (tset_child_ok t (mk r0 c0) b0 n0 (H (Nb r0 c0 b0) ltac:(left))) as (t1 & -> & Hs1 & Hc1).
    destruct (IH t1) as (t2 & E2 & Hs2 & Hc2).
    { intros x Hx. rewrite Hc1. case_bool_decide; [by eexists|]. apply H. by right. }
    unfold zero_ones in E2. rewrite E2. exists t2. split; [done|]. split; [by rewrite Hs2|]. intros r c b.
    rewrite Hc2, Hc1. case_bool_decide as Hin.
    + rewrite bool_decide_eq_true_2; [done|]. by right.
    + case_bool_decide as Hd.
      * destruct Hd as [Hd ->]. inversion Hd; subst. rewrite bool_decide_eq_true_2; [done|]. left.
      * rewrite bool_decide_eq_false_2; [done|]. intros Hx. apply elem_of_cons in Hx as [Hx|Hx]; [|done].
        inversion Hx; subst. by apply Hd.
Qed.

(** how a resolved branch changes while the tree of the 1-terminal goes from X to X' *)
Definition keep (X X' : tree) (g g' : nid) : Prop :=
  (g' = g /\ (is1 g -> X' = X)) \/ (is1 g /\ X = T0 /\ g' = n0).
Definition sd (X : tree) (g : nid) (T : tree) : Prop := g = n0 /\ T = T0 \/ g = n1 /\ T = X.

Lemma n0_not1 : ~ is1 n0.
Proof. done. Qed.
Lemma n1_is1 : is1 n1.
Proof. done. Qed.

Lemma keep_refl X g : keep X X g g.
Proof. by left. Qed.
Lemma keep_trans X X' X'' g g' g'' : keep X X' g g' -> keep X' X'' g' g'' -> keep X X'' g g''.
Proof.
  intros [[-> H]|(H & -> & ->)] [[-> H']|(H' & E & ->)].
  - left. split; [done|]. intros Hg. by rewrite H', H.
  - right. split_and!; try done. by rewrite <- (H H').
  - by right.
  - by destruct n0_not1.
Qed.
Lemma keep_sd X X' g g' T : sd X g T -> keep X X' g g' -> sd X' g' T.
Proof.
  intros [[-> ->]|[-> ->]] [[-> H]|(H & E & ->)].
  - by left.
  - by left.
  - right. split; [done|]. symmetry. by apply H.
  - left. done.
Qed.

Section pass2.
  Context {S : Type} (a : nat) (mrg : S -> S -> nat) (ch : nat -> S -> nat -> Z * S).
  Context (FS : S -> Prop) (G : S -> tree).
  Context (HG0 : forall s s', FS s -> FS s' -> mrg s s' <> 1 -> mrg s s' <> 2 -> G s = G s').
  Context (HG1 : forall s s', FS s -> FS s' -> mrg s s' = 1 -> G s = T0).
  Context (HG2 : forall s s', FS s -> FS s' -> mrg s s' = 2 -> G s' = T0).

  Definition xof (one : option S) : tree := match one with Some o => G o | None => T1 end.

  (** [osrc] is the set of the resolved branches (P) that point to the 1-terminal *)
  Record OI (t : table) (P : nat -> nat -> nat -> Prop) (one : option S) (osrc : list nbi) : Prop := {
    oi_in : forall r c b, Nb r c b ∈ osrc -> 0 < r /\ P r c b /\ exists g, child t (mk r c) b = Some g /\ is1 g;
    oi_all : forall r c b g, 0 < r -> P r c b -> child t (mk r c) b = Some g -> is1 g -> Nb r c b ∈ osrc;
    oi_one : osrc = [] \/ exists o, one = Some o /\ FS o;
    oi_fs : forall o, one = Some o -> FS o
  }.

  Lemma OI_ext t t' (P P' : nat -> nat -> nat -> Prop) one osrc : OI t P one osrc ->
    (forall r c b, P' r c b -> 0 < r -> P r c b \/ forall g, child t' (mk r c) b = Some g -> ~ is1 g) ->
    (forall r c b, P r c b -> 0 < r -> P' r c b) ->
    (forall r c b, P r c b -> 0 < r -> child t' (mk r c) b = child t (mk r c) b) -> OI t' P' one osrc.
  Proof.
    intros [I1 I2 I3 I4] H1 H2 H3. constructor; [| |done|done].
    - intros r c b Hx. destruct (I1 r c b Hx) as (Hr & HP & g & Hg & Hi). split_and!; [done|by apply H2|].
      exists g. by rewrite H3.
    - intros r c b g Hr HP Hg Hi. destruct (H1 r c b HP Hr) as [HP'|Hn].
      + rewrite H3 in Hg by done. by eapply I2.
      + by destruct (Hn g Hg).
  Qed.

  (** a branch whose child is the 1-terminal *)
  Definition put_one (i jj b : nat) (t : table) (one : option S) (osrc : list nbi) (s' : S)
    : option (table * (option S * list nbi)) :=
    match osrc with
    | [] => t' ← tset_child t (mk i jj) b n1; Some (t', (Some s', [Nb i jj b]))
    | _ :: _ =>
        o ← one;
        match mrg o s' with
        | 1 => t' ← zero_ones osrc t; t'' ← tset_child t' (mk i jj) b n1; Some (t'', (Some s', [Nb i jj b]))
        | 2 => t' ← tset_child t (mk i jj) b n0; Some (t', (one, osrc))
        | _ => t' ← tset_child t (mk i jj) b n1; Some (t', (one, Nb i jj b :: osrc))
        end
    end.

  Lemma put_one_ok i jj b t one osrc s' P : 0 < i -> OI t P one osrc -> ~ P i jj b ->
    is_Some (child t (mk i jj) b) -> FS s' ->
    exists t' one' osrc', put_one i jj b t one osrc s' = Some (t', (one', osrc')) /\ shape t' = shape t /\
      OI t' (fun r c b' => P r c b' \/ (r = i /\ c = jj /\ b' = b)) one' osrc' /\
      (exists g, child t' (mk i jj) b = Some g /\ sd (xof one') g (G s')) /\
      (forall r c b' g, 0 < r -> P r c b' -> child t (mk r c) b' = Some g ->
         exists g', child t' (mk r c) b' = Some g' /\ keep (xof one) (xof one') g g') /\
      (forall c b', child t' (mk 0 c) b' = child t (mk 0 c) b').
  Proof.
    intros Hi HO HnP Hc HF.
    assert (forall r c b', P r c b' -> ~ (r = i /\ c = jj /\ b' = b)) as Hdis by (intros r c b' HP (-> & -> & ->); done).
    (* writing x into the slot *)
    assert (forall t1 x, is_Some (child t1 (mk i jj) b) -> exists t2, tset_child t1 (mk i jj) b x = Some t2 /\ shape t2 = shape t1 /\
      child t2 (mk i jj) b = Some x /\ forall r c b', ~ (r = i /\ c = jj /\ b' = b) -> child t2 (mk r c) b' = child t1 (mk r c) b') as Hset.
    { intros t1 x Hx. destruct (tset_child_ok t1 (mk i jj) b x Hx) as (t2 & E & Hs & Hc2). exists t2. split_and!; try done.
      - rewrite Hc2. by rewrite bool_decide_eq_true_2.
      - intros r c b' Hne. rewrite Hc2. rewrite bool_decide_eq_false_2; [done|]. intros [E1 ->]. inversion E1; subst. by apply Hne. }
    unfold put_one. destruct osrc as [|x0 osrc0] eqn:Eo.
    { destruct (Hset t n1 Hc) as (t2 & -> & Hs & Hc1 & Hc2). cbn [mbind option_bind]. do 3 eexists. split; [done|]. split; [done|].
      split_and!; [| | |intros c b'; apply Hc2; lia].
      - constructor.
        + intros r c b' Hx. apply elem_of_list_singleton in Hx. inversion Hx; subst. split_and!; try done; [by right|]. by exists n1.
        + intros r c b' g Hr [HP|(-> & -> & ->)] Hg Hg1; [|left]. rewrite Hc2 in Hg by (by apply Hdis).
          pose proof (oi_all _ _ _ _ HO r c b' g Hr HP Hg Hg1) as Hin. by apply elem_of_nil in Hin.
        + right. by exists s'.
        + intros o' Eo'. by inversion Eo'; subst.
      - exists n1. split; [done|]. by right.
      - intros r c b' g Hr HP Hg. exists g. rewrite Hc2 by (by apply Hdis). split; [done|]. left. split; [done|]. intros Hg1.
        pose proof (oi_all _ _ _ _ HO r c b' g Hr HP Hg Hg1) as Hin. by apply elem_of_nil in Hin. }
    rewrite <- Eo in *. destruct (oi_one _ _ _ _ HO) as [Hnil|(o & -> & Ho)]; [rewrite Eo in Hnil; discriminate|].
    cbn [mbind option_bind].
    assert (mrg o s' = 1 \/ mrg o s' = 2 \/ (mrg o s' <> 1 /\ mrg o s' <> 2)) as [Em|[Em|[Em1 Em2]]] by lia.
    - rewrite Em. destruct (zero_ones_ok osrc t) as (t1 & -> & Hs1 & Hz).
      { intros [r c b'] Hx. destruct (oi_in _ _ _ _ HO r c b' Hx) as (_ & _ & g & Hg & _). by exists g. }
      cbn [mbind option_bind]. destruct (Hset t1 n1) as (t2 & -> & Hs & Hc1 & Hc2).
      { rewrite Hz. case_bool_decide; [by eexists|done]. }
      cbn [mbind option_bind]. do 3 eexists. split; [done|]. split; [by rewrite Hs|]. split_and!.
      4: { intros c b'. rewrite Hc2, Hz by lia. case_bool_decide as Hin; [|done]. apply (oi_in _ _ _ _ HO) in Hin. lia. }
      + constructor.
        * intros r c b' Hx. apply elem_of_list_singleton in Hx. inversion Hx; subst. split_and!; try done; [by right|]. by exists n1.
        * intros r c b' g Hr [HP|(-> & -> & ->)] Hg Hg1; [|left]. exfalso. rewrite Hc2, Hz in Hg by (by apply Hdis).
          case_bool_decide as Hin; [inversion Hg; subst; by apply n0_not1|].
          apply Hin. by eapply (oi_all _ _ _ _ HO).
        * right. by exists s'.
        * intros o' Eo'. by inversion Eo'; subst.
      + exists n1. split; [done|]. by right.
      + intros r c b' g Hr HP Hg. rewrite Hc2, Hz by (by apply Hdis). case_bool_decide as Hin.
        * exists n0. split; [done|]. right. destruct (oi_in _ _ _ _ HO r c b' Hin) as (_ & _ & g' & Hg' & Hi1).
          rewrite Hg in Hg'. inversion Hg'; subst g'. split_and!; try done. by apply (HG1 o s').
        * exists g. split; [done|]. left. split; [done|]. intros Hg1. destruct Hin. by eapply (oi_all _ _ _ _ HO).
    - rewrite Em. destruct (Hset t n0 Hc) as (t2 & -> & Hs & Hc1 & Hc2). cbn [mbind option_bind]. do 3 eexists. split; [done|]. split; [done|].
      split_and!; [| | |intros c b'; apply Hc2; lia].
      + eapply OI_ext; [exact HO| | |].
        * intros r c b' [HP|(-> & -> & ->)] _; [by left|right]. intros g Hg. rewrite Hc1 in Hg. inversion Hg; subst. apply n0_not1.
        * intros r c b' HP _. by left.
        * intros r c b' HP _. apply Hc2. by apply Hdis.
      + exists n0. split; [done|]. left. split; [done|]. by apply (HG2 o s').
      + intros r c b' g Hr HP Hg. exists g. rewrite Hc2 by (by apply Hdis). split; [done|]. apply keep_refl.
    - assert (G o = G s') as EG by (by apply HG0).
      destruct (Hset t n1 Hc) as (t2 & Et & Hs & Hc1 & Hc2).
      exists t2, (Some o), (Nb i jj b :: osrc). split.
      { rewrite Et. destruct (mrg o s') as [|[|[|x]]]; try done. }
      split; [done|]. split_and!; [| | |intros c b'; apply Hc2; lia].
      + constructor.
        * intros r c b' Hx. apply elem_of_cons in Hx as [Hx|Hx].
          -- inversion Hx; subst. split_and!; try done; [by right|]. by exists n1.
          -- destruct (oi_in _ _ _ _ HO r c b' Hx) as (? & HP & g & Hg & ?). split_and!; try done; [by left|].
             exists g. rewrite Hc2 by (by apply Hdis). done.
        * intros r c b' g Hr [HP|(-> & -> & ->)] Hg Hg1; [|left]. rewrite Hc2 in Hg by (by apply Hdis). right.
          by eapply (oi_all _ _ _ _ HO).
        * right. by exists o.
        * intros o' Eo'. by inversion Eo'; subst.
      + exists n1. split; [done|]. right. done.
      + intros r c b' g Hr HP Hg. exists g. rewrite Hc2 by (by apply Hdis). split; [done|]. apply keep_refl.
  Qed.

  (** ** Expanding the nodes of level i *)
  Context (i : nat) (Hi : 0 < i) (R : nat -> S -> Prop).
  Context (t0 : table) (w0 : list (pnode S)) (one0 : option S).
  Context (Hw0 : forall p r c b, p ∈ w0 -> p_src p = SBr r c b -> i < r).
  (** code and state of the branches of the new nodes *)
  Context (W : nat -> nat -> Z * S).
  Context (HW : forall c b, b < a -> (fst (W c b) < Z.of_nat i)%Z /\
     ((0 < fst (W c b))%Z -> R (Z.to_nat (fst (W c b))) (snd (W c b))) /\ ((fst (W c b) < 0)%Z -> FS (snd (W c b)))).

  Definition bok (X : tree) (c b : nat) (t : table) (w : list (pnode S)) : Prop :=
    (fst (W c b) = 0%Z /\ child t (mk i c) b = Some n0) \/
    ((fst (W c b) < 0)%Z /\ exists g, child t (mk i c) b = Some g /\ sd X g (G (snd (W c b)))) \/
    ((0 < fst (W c b) < Z.of_nat i)%Z /\ Pn (Z.to_nat (fst (W c b))) 0 0 (SBr i c b) (snd (W c b)) ∈ w).

  Definition res (proc : nat -> nat -> Prop) (w : list (pnode S)) (r c b : nat) : Prop :=
    SBr r c b ∉ map p_src w /\ (i < r \/ r = i /\ proc c b).

  Record p2 (proc : nat -> nat -> Prop) (t : table) (w : list (pnode S)) (low : nat) (one : option S) (osrc : list nbi)
      (news : list (pnode S)) : Prop := {
    p2_w : w = news ++ w0;
    p2_shape : shape t = shape t0;
    p2_oi : OI t (res proc w) one osrc;
    p2_old : forall r c b g, i < r -> SBr r c b ∉ map p_src w0 -> child t0 (mk r c) b = Some g ->
       exists g', child t (mk r c) b = Some g' /\ keep (xof one0) (xof one) g g';
    p2_zero : forall c b, child t (mk 0 c) b = child t0 (mk 0 c) b;
    p2_row : forall c b, proc c b -> b < a /\ bok (xof one) c b t news;
    p2_new : forall p, p ∈ news -> exists c b, proc c b /\ b < a /\ (0 < fst (W c b) < Z.of_nat i)%Z /\
       p = Pn (Z.to_nat (fst (W c b))) 0 0 (SBr i c b) (snd (W c b));
    p2_nodup : NoDup (map p_src news);
    p2_low : low <= i - 1 /\ forall p, p ∈ news -> low <= p_lv p
  }.

  Lemma p2_start osrc : OI t0 (fun r c b => SBr r c b ∉ map p_src w0 /\ i < r) one0 osrc ->
    p2 (fun _ _ => False) t0 w0 (i - 1) one0 osrc [].
  Proof.
    intros HO. constructor; try done.
    - eapply OI_ext; [exact HO| | |done].
      + intros r c b [H1 [H2|[_ []]]] _. by left.
      + intros r c b [H1 H2] _. split; [done|by left].
    - intros r c b g Hr Hn Hg. exists g. split; [done|]. apply keep_refl.
    - intros p Hp. by apply elem_of_nil in Hp.
    - constructor.
    - split; [done|]. intros p Hp. by apply elem_of_nil in Hp.
  Qed.

  Lemma res_mono (proc proc' : nat -> nat -> Prop) w r c b : (forall c b, proc c b -> proc' c b) -> res proc w r c b -> res proc' w r c b.
  Proof. intros H [H1 H2]. split; [done|]. destruct H2 as [?|[? ?]]; [by left|right; eauto]. Qed.

  Lemma bok_keep X X' c b t t' w w' : bok X c b t w -> (forall p, p ∈ w -> p ∈ w') ->
    (forall g, (fst (W c b) <= 0)%Z -> child t (mk i c) b = Some g -> exists g', child t' (mk i c) b = Some g' /\ keep X X' g g') ->
    bok X' c b t' w'.
  Proof.
    intros [[E H]|[(E & g & Hg & H)|[E H]]] Hw Hk.
    - left. split; [done|]. destruct (Hk n0 ltac:(lia) H) as (g' & Hg' & [[-> _]|(H1 & _ & ->)]); done.
    - right; left. split; [done|]. destruct (Hk g ltac:(lia) Hg) as (g' & Hg' & HK). exists g'. split; [done|]. by eapply keep_sd.
    - right; right. split; [done|]. by apply Hw.
  Qed.

  (** one more branch *)
  Definition mbranch (jj b : nat) (acc : table * list (pnode S) * nat * bool * (option S * list nbi))
      : option (table * list (pnode S) * nat * bool * (option S * list nbi)) :=
    let '(t, w, low, z, (one, osrc)) := acc in
    let '(c, s') := W jj b in
    if (c =? 0)%Z then t' ← tset_child t (mk i jj) b n0; Some (t', w, low, z, (one, osrc))
    else if (c <? 0)%Z then '(t', ones) ← put_one i jj b t one osrc s'; Some (t', w, low, false, ones)
    else if (Z.to_nat c <? i) then Some (t, Pn (Z.to_nat c) 0 0 (SBr i jj b) s' :: w, min low (Z.to_nat c), false, (one, osrc))
    else None.

  Lemma mbranch_eq s jj acc b : ch i s b = W jj b -> mpass2_branch mrg ch i s jj acc b = mbranch jj b acc.
  Proof.
    intros E. unfold mpass2_branch, mbranch, put_one. destruct acc as [[[[t w] low] z] [one osrc]]. rewrite E.
    destruct (W jj b) as [c s']. destruct (c =? 0)%Z; [done|]. destruct (c <? 0)%Z; [|done].
    destruct osrc as [|x osrc].
    - by destruct (tset_child t (mk i jj) b n1).
    - destruct one as [o|]; [|done]. cbn [mbind option_bind].
      destruct (mrg o s') as [|[|[|y]]].
      + by destruct (tset_child t (mk i jj) b n1).
      + destruct (zero_ones (x :: osrc) t) as [t1|]; [|done]. cbn [mbind option_bind]. by destruct (tset_child t1 (mk i jj) b n1).
      + by destruct (tset_child t (mk i jj) b n0).
      + by destruct (tset_child t (mk i jj) b n1).
  Qed.

  Lemma mbranch_ok proc t w low one osrc news z jj b : p2 proc t w low one osrc news -> ~ proc jj b -> b < a ->
    is_Some (child t0 (mk i jj) b) ->
    exists t' w' low' one' osrc' news' z', mbranch jj b (t, w, low, z, (one, osrc)) = Some (t', w', low', z', (one', osrc')) /\
      p2 (fun c' b' => proc c' b' \/ (c' = jj /\ b' = b)) t' w' low' one' osrc' news'.
  Proof.
    intros HP Hnp Hb Hc. pose proof HP as [-> Hsh HO Hold H0t Hrow Hnew Hnd [Hl1 Hl2]].
    assert (is_Some (child t (mk i jj) b)) as Hct.
    { destruct Hc as [g0 Hg0]. unfold child in Hg0. destruct (tget t0 (mk i jj)) as [p0|] eqn:Ep0; [|done]. simpl in Hg0.
      destruct (shape_get t0 t (mk i jj) p0 (eq_sym Hsh) Ep0) as (p1 & Hp1 & El).
      eapply child_is_Some; [done|]. rewrite El. by eapply lookup_lt_Some. }
    destruct (HW jj b Hb) as (Hlt & HR & HF). unfold mbranch. destruct (W jj b) as [cd s'] eqn:EW. cbn [fst snd] in *.
    assert (SBr i jj b ∉ map p_src (news ++ w0)) as Hfresh.
    { intros Hin. apply elem_of_list_fmap in Hin as (p & Ep & Hp). symmetry in Ep. apply elem_of_app in Hp as [Hp|Hp].
      - destruct (Hnew p Hp) as (c' & b' & Hpr & _ & _ & ->). simpl in Ep. inversion Ep; subst. done.
      - pose proof (Hw0 p _ _ _ Hp Ep). lia. }
    assert (~ res proc (news ++ w0) i jj b) as HnP.
    { intros [_ [?|[_ ?]]]; [lia|done]. }
    assert (forall c' b', proc c' b' -> (fst (W c' b') <= 0)%Z -> res proc (news ++ w0) i c' b') as Hresp.
    { intros c' b' Hpr Hle. split; [|by right]. intros Hin. apply elem_of_list_fmap in Hin as (p & Ep & Hp). symmetry in Ep.
      apply elem_of_app in Hp as [Hp|Hp].
      - destruct (Hnew p Hp) as (c1 & b1 & _ & _ & H1 & ->). simpl in Ep. inversion Ep; subst. lia.
      - pose proof (Hw0 p _ _ _ Hp Ep). lia. }
    (* slots written with a terminal *)
    assert (forall t' one' osrc', shape t' = shape t ->
       OI t' (fun r c b' => res proc (news ++ w0) r c b' \/ (r = i /\ c = jj /\ b' = b)) one' osrc' ->
       bok (xof one') jj b t' news ->
       (forall r c b' g, 0 < r -> res proc (news ++ w0) r c b' -> child t (mk r c) b' = Some g ->
         exists g', child t' (mk r c) b' = Some g' /\ keep (xof one) (xof one') g g') ->
       (forall c b', child t' (mk 0 c) b' = child t (mk 0 c) b') ->
       p2 (fun c' b' => proc c' b' \/ (c' = jj /\ b' = b)) t' (news ++ w0) low one' osrc' news) as Hterm.
    { intros t' one' osrc' Hs' HO' Hbok HK HZ. constructor; try done.
      - by rewrite Hs'.
      - eapply OI_ext; [exact HO'| | |done].
        + intros r c b' [H1 [H2|(H2 & [H3|[-> ->]])]] _; left; [left; by split; [|left]|left; by split; [|right]|by right].
        + intros r c b' [H|(-> & -> & ->)] _; [eapply res_mono; [|exact H]; by left|]. split; [done|]. right. split; [done|]. by right.
      - intros r c b' g Hr Hn Hg. destruct (Hold r c b' g Hr Hn Hg) as (g1 & Hg1 & K1).
        destruct (HK r c b' g1 ltac:(lia)) as (g2 & Hg2 & K2); [|done|].
        + split; [|by left]. rewrite map_app. intros Hin. apply elem_of_app in Hin as [Hin|Hin]; [|done].
          apply elem_of_list_fmap in Hin as (p & Ep & Hp). destruct (Hnew p Hp) as (c1 & b1 & _ & _ & _ & ->). simpl in Ep. inversion Ep. lia.
        + exists g2. split; [done|]. by eapply keep_trans.
      - intros c b'. by rewrite HZ.
      - intros c' b' [Hpr|[-> ->]]; [|done]. destruct (Hrow c' b' Hpr) as [Hb' HB]. split; [done|].
        eapply bok_keep; [exact HB|done|]. intros g Hle Hg. apply (HK i c' b' g); [done| |done]. by apply Hresp.
      - intros p Hp. destruct (Hnew p Hp) as (c' & b' & ? & ? & ? & ?). exists c', b'. split; [by left|]. done. }
    destruct (Z.eqb_spec cd 0) as [E0|E0].
    { destruct (tset_child_ok t (mk i jj) b n0 Hct) as (t' & -> & Hs & Hc'). cbn [mbind option_bind].
      exists t', (news ++ w0), low, one, osrc, news, z. split; [done|].
      assert (forall r c b', res proc (news ++ w0) r c b' -> child t' (mk r c) b' = child t (mk r c) b') as Hsame.
      { intros r c b' Hres. rewrite Hc'. rewrite bool_decide_eq_false_2; [done|]. intros [E1 ->]. inversion E1; subst. done. }
      assert (child t' (mk i jj) b = Some n0) as Hnew0 by (rewrite Hc'; by rewrite bool_decide_eq_true_2).
      apply Hterm; try done.
      - eapply OI_ext; [exact HO| | |].
        + intros r c b' [?|(-> & -> & ->)] _; [by left|right]. intros g Hg. rewrite Hnew0 in Hg. inversion Hg. apply n0_not1.
        + intros r c b' ? _. by left.
        + intros r c b' ? _. by apply Hsame.
      - left. rewrite EW. done.
      - intros r c b' g _ Hres Hg. exists g. rewrite Hsame by done. split; [done|]. apply keep_refl.
      - intros c b'. rewrite Hc'. rewrite bool_decide_eq_false_2; [done|]. intros [E1 _]. inversion E1. lia. }
    destruct (Z.ltb_spec cd 0) as [E1|E1].
    { destruct (put_one_ok i jj b t one osrc s' _ Hi HO HnP Hct ltac:(by apply HF)) as (t' & one' & osrc' & -> & Hs & HO' & Hg & HK & HZ).
      cbn [mbind option_bind]. exists t', (news ++ w0), low, one', osrc', news, false. split; [done|].
      apply Hterm; try done. right; left. rewrite EW. done. }
    destruct (Nat.ltb_spec (Z.to_nat cd) i) as [Hlt'|]; [|lia].
    set (pn := Pn (Z.to_nat cd) 0 0 (SBr i jj b) s').
    exists t, (pn :: news ++ w0), (min low (Z.to_nat cd)), one, osrc, (pn :: news), false. split; [done|].
    constructor; try done.
    - eapply OI_ext; [exact HO| | |done].
      + intros r c b' [H1 H2] _. left. split.
        * intros Hin. apply H1. cbn [map]. by right.
        * destruct H2 as [?|(-> & [?|[-> ->]])]; [by left|by right|]. destruct H1. left.
      + intros r c b' [H1 H2] Hr. split.
        * cbn [map pn p_src]. intros Hin. apply elem_of_cons in Hin as [E|Hin]; [|done]. inversion E; subst.
          destruct H2 as [?|[_ ?]]; [lia|done].
        * destruct H2 as [?|[? ?]]; [by left|right]. split; [done|]. by left.
    - intros c' b' [Hpr|[-> ->]].
      + destruct (Hrow c' b' Hpr) as [Hb' HB]. split; [done|]. eapply bok_keep; [exact HB| |].
        * intros p Hp. by right.
        * intros g _ Hg. exists g. split; [done|]. apply keep_refl.
      + split; [done|]. right; right. rewrite EW. cbn [fst snd]. split; [lia|]. left.
    - intros p Hp. apply elem_of_cons in Hp as [->|Hp].
      + exists jj, b. rewrite EW. cbn [fst snd]. split; [by right|]. split; [done|]. split; [lia|done].
      + destruct (Hnew p Hp) as (c' & b' & ? & ? & ? & ?). exists c', b'. split; [by left|]. done.
    - cbn [map]. constructor; [|done]. intros Hin. apply Hfresh. rewrite map_app. apply elem_of_app. by left.
    - split; [lia|]. intros p Hp. apply elem_of_cons in Hp as [->|Hp]; cbn [pn p_lv]; [lia|]. pose proof (Hl2 p Hp). lia.
  Qed.

  Lemma p2_ext (proc proc' : nat -> nat -> Prop) t w low one osrc news : (forall c b, proc c b <-> proc' c b) ->
    p2 proc t w low one osrc news -> p2 proc' t w low one osrc news.
  Proof.
    intros H [H1 H2 H3 H4 H9 H5 H6 H7 H8]. constructor; try done.
    - eapply OI_ext; [exact H3| | |done].
      + intros r c b Hr _. left. eapply res_mono; [|exact Hr]. intros c' b'. apply H.
      + intros r c b Hr _. eapply res_mono; [|exact Hr]. intros c' b'. apply H.
    - intros c b Hc. apply H5. by apply H.
    - intros p Hp. destruct (H6 p Hp) as (c & b & Hc & ?). exists c, b. split; [by apply H|done].
  Qed.

  Lemma mbranches_ok proc t w low one osrc news z jj : p2 proc t w low one osrc news -> (forall b, ~ proc jj b) ->
    (forall b, b < a -> is_Some (child t0 (mk i jj) b)) ->
    exists t' w' low' one' osrc' news' z', ofor a (fun acc b => mbranch jj b acc) (t, w, low, z, (one, osrc))
        = Some (t', w', low', z', (one', osrc')) /\
      p2 (fun c' b' => proc c' b' \/ (c' = jj /\ b' < a)) t' w' low' one' osrc' news'.
  Proof.
    intros HP Hn Hc.
    destruct (ofor_inv (fun acc b => mbranch jj b acc)
      (fun k '(t, w, low, z, (one, osrc)) => exists news, p2 (fun c' b' => proc c' b' \/ (c' = jj /\ b' < k)) t w low one osrc news)
      a (t, w, low, z, (one, osrc))) as ([[[[t' w'] low'] z'] [one' osrc']] & E & news' & HP').
    - exists news. eapply p2_ext; [|exact HP]. intros c b. split; [by left|]. intros [?|[_ ?]]; [done|lia].
    - intros b [[[[t1 w1] low1] z1] [one1 osrc1]] Hb (news1 & HP1).
      destruct (mbranch_ok _ _ _ _ _ _ _ z1 jj b HP1) as (t2 & w2 & low2 & one2 & osrc2 & news2 & z2 & E2 & HP2); [|done|by apply Hc|].
      { intros [H|[_ H]]; [by eapply Hn|lia]. }
      exists (t2, w2, low2, z2, (one2, osrc2)). split; [done|]. exists news2. eapply p2_ext; [|exact HP2].
      intros c' b'. split.
      + intros [[?|[-> ?]]|[-> ->]]; [by left|right; split; [done|lia]|right; split; [done|lia]].
      + intros [?|[-> ?]]; [by do 2 left|]. destruct (decide (b' = b)) as [->|]; [by right|left; right]. split; [done|lia].
    - exists t', w', low', one', osrc', news', z'. split; [done|]. eapply p2_ext; [|exact HP']. done.
  Qed.

  Lemma mbranches_zero jj w low z ones bs : (forall b, b ∈ bs -> fst (W jj b) = 0%Z) -> forall t t' w' low' z' ones',
    ofold (fun acc b => mbranch jj b acc) bs (t, w, low, z, ones) = Some (t', w', low', z', ones') ->
    ofold (fun t b => tset_child t (mk i jj) b n0) bs t = Some t' /\ w' = w /\ low' = low /\ z' = z /\ ones' = ones.
  Proof.
    induction bs as [|b bs IH]; intros HZ t t' w' low' z' ones' H.
    - cbn in H. by inversion H.
    - cbn [ofold] in *. assert (mbranch jj b (t, w, low, z, ones) = t1 ← tset_child t (mk i jj) b n0; Some (t1, w, low, z, ones)) as E.
      { unfold mbranch. destruct ones as [one osrc]. pose proof (HZ b ltac:(left)) as Hz. destruct (W jj b) as [cd s']. simpl in Hz. by rewrite Hz. }
      rewrite E in H. destruct (tset_child t (mk i jj) b n0) as [t1|]; [|done]. cbn [mbind option_bind] in H.
      apply IH; [|done]. intros b' Hb'. apply HZ. by right.
  Qed.

  Definition livep (x : pnode S * nid) : bool := negb (neqb (snd x) n1).

  Lemma mpass2_ok (L : list (pnode S * nid)) osrc :
    OI t0 (fun r c b => SBr r c b ∉ map p_src w0 /\ i < r) one0 osrc ->
    (forall jj p f, List.filter livep L !! jj = Some (p, f) -> (forall b, b < a -> is_Some (child t0 (mk i jj) b)) /\
        (neqb f n0 = true -> forall b, b < a -> fst (W jj b) = 0%Z) /\ (neqb f n0 = false -> forall b, b < a -> ch i (p_st p) b = W jj b)) ->
    exists t w low dead one osrc' news, ofold (mpass2_node a mrg ch i) L (t0, w0, i - 1, 0, 0, (one0, osrc)) =
       Some (t, w, low, dead, length (List.filter livep L), (one, osrc')) /\ dead <= length (List.filter livep L) /\
      p2 (fun c b => c < length (List.filter livep L) /\ b < a) t w low one osrc' news.
  Proof.
    intros HO HL.
    destruct (ofold_inv (mpass2_node a mrg ch i)
      (fun pre '(t, w, low, dead, jj, (one, osrc)) => jj = length (List.filter livep pre) /\ dead <= jj /\
         exists news, p2 (fun c b => c < jj /\ b < a) t w low one osrc news) L (t0, w0, i - 1, 0, 0, (one0, osrc)))
      as ([[[[[t w] low] dead] jj] [one osrc']] & E & -> & Hd & news & HP).
    - split; [done|]. split; [done|]. exists []. eapply p2_ext; [|by apply p2_start]. intros c b. split; [done|lia].
    - intros pre [p f] post [[[[[t w] low] dead] jj] [one osrc1]] El (-> & Hd & news & HP). unfold mpass2_node.
      set (jj := length (List.filter livep pre)) in *.
      assert (livep (p, f) = negb (neqb f n1)) as Elv by done.
      destruct (neqb f n1) eqn:Ef.
      { eexists. split; [done|]. rewrite List.filter_app, app_length. cbn [List.filter]. rewrite Elv. cbn [negb length]. rewrite Nat.add_0_r.
        split; [done|]. split; [done|]. by exists news. }
      assert (length (List.filter livep (pre ++ [(p, f)])) = Datatypes.S jj) as Elen.
      { rewrite List.filter_app, app_length. cbn [List.filter]. rewrite Elv. cbn [negb length]. unfold jj. lia. }
      destruct (HL jj p f) as (Hc & HZ & HCh).
      { rewrite El, List.filter_app. cbn [List.filter]. rewrite Elv. cbn [negb]. rewrite lookup_app_r by done. unfold jj. by rewrite Nat.sub_diag. }
      destruct (mbranches_ok _ _ _ _ _ _ _ true jj HP) as (t' & w' & low' & one' & osrc' & news' & z' & E & HP'); [|done|].
      { intros b [? _]. lia. }
      assert (p2 (fun c b => c < Datatypes.S jj /\ b < a) t' w' low' one' osrc' news') as HP2.
      { eapply p2_ext; [|exact HP']. intros c b. split.
        - intros [[? ?]|[-> ?]]; split; try done; lia.
        - intros [? ?]. destruct (decide (c = jj)) as [->|]; [by right|left; split; [lia|done]]. }
      destruct (neqb f n0) eqn:Ef0.
      + apply mbranches_zero in E as (E & -> & -> & -> & Eo); [|intros b Hb; apply elem_of_seq in Hb; apply HZ; [done|lia]].
        inversion Eo; subst one' osrc'. unfold ofor. rewrite E. cbn [mbind option_bind]. eexists. split; [done|]. rewrite Elen.
        split; [done|]. split; [lia|]. by exists news'.
      + assert (ofor a (mpass2_branch mrg ch i (p_st p) jj) (t, w, low, true, (one, osrc1)) = Some (t', w', low', z', (one', osrc'))) as E'.
        { rewrite <- E. unfold ofor. apply ofold_ext. intros acc b Hb. apply mbranch_eq. apply HCh; [done|]. apply elem_of_seq in Hb. lia. }
        rewrite E'. cbn [mbind option_bind]. eexists. split; [done|]. rewrite Elen. split; [done|]. split; [destruct z'; lia|]. by exists news'.
    - exists t, w, low, dead, one, osrc', news. done.
  Qed.
End pass2.
