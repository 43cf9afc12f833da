From Verif Require Import Base M_Table Tree M_Hash P_Hash M_Sweeper M_Engine P_Pass.
Local Open Scope nat_scope.

Lemma ofold_concat {A B S} (f : S -> B -> option S) (h : A -> list B) (ks : list A) s :
  ofold (fun s k => ofold f (h k) s) ks s = ofold f (concat (map h ks)) s.
Proof.
  revert s. induction ks as [|k ks IH]; intros s; simpl; [done|].
  rewrite ofold_app. destruct (ofold f (h k) s); [apply IH|done].
Qed.

Lemma ofold_ext {A S} (f g : S -> A -> option S) l s :
  (forall s x, x ∈ l -> f s x = g s x) -> ofold f l s = ofold g l s.
Proof.
  revert s. induction l as [|x l IH]; intros s H; simpl; [done|].
  rewrite H by left. destruct (g s x); [|done]. apply IH. intros s' y Hy. apply H. by right.
Qed.

Lemma ofold_map {A B S} (f : S -> B -> option S) (h : A -> B) l s :
  ofold f (map h l) s = ofold (fun s x => f s (h x)) l s.
Proof. revert s. induction l as [|x l IH]; intros s; simpl; [done|]. destruct (f s (h x)); [apply IH|done]. Qed.

Section pass2.
  Context {S : Type} (a : nat) (nt : nat) (ngr : nat -> nat).
  Context (ch : nat -> nat -> S -> nat -> option (Z * nat * S)).
  Context (R : nat -> nat -> S -> Prop).
  Context (Hch : forall i g s b, R i g s -> b < a -> exists c g' s', ch i g s b = Some (c, g', s') /\
     (c < Z.of_nat i)%Z /\ ((0 < c)%Z -> g' < ngr (Z.to_nat c) /\ R (Z.to_nat c) g' s')).
  Context (i : nat) (Hi : 0 < i).

  (** effect of expanding the node of state s (group g) at column c by thread y *)
  Definition bok (g y : nat) (s : S) (c b : nat) (t : table) (w : list (pnode S)) : Prop :=
    exists cd g' s', ch i g s b = Some (cd, g', s') /\
      ((cd = 0%Z /\ child t (mk i c) b = Some n0) \/
       ((cd < 0)%Z /\ child t (mk i c) b = Some n1) \/
       ((0 < cd < Z.of_nat i)%Z /\ Pn (Z.to_nat cd) g' y (SBr i c b) s' ∈ w)).

  (** a pending node created while expanding (s, g) at column c by thread y *)
  Definition newp (g y : nat) (s : S) (c : nat) (b : nat) (p : pnode S) : Prop :=
    exists cd g' s', ch i g s b = Some (cd, g', s') /\ (0 < cd < Z.of_nat i)%Z /\ g' < ngr (Z.to_nat cd) /\
      R (Z.to_nat cd) g' s' /\ p = Pn (Z.to_nat cd) g' y (SBr i c b) s'.

  Lemma pass2_branches g y s c t0 w0 low0 :
    R i g s -> (forall b, b < a -> is_Some (child t0 (mk i c) b)) -> low0 < i ->
    exists t news low z, ofor a (pass2_branch ngr ch i g y s c) (t0, w0, low0, true) = Some (t, news ++ w0, low, z) /\
      shape t = shape t0 /\
      (forall f b, code f <> (i, c) -> child t f b = child t0 f b) /\
      (forall b, b < a -> bok g y s c b t news) /\
      (forall p, p ∈ news -> exists b, b < a /\ newp g y s c b p) /\
      NoDup (map p_src news) /\
      low <= low0 /\ (forall p, p ∈ news -> low <= p_lv p).
  Proof.
    intros HR Hex Hlow.
    destruct (ofor_inv (pass2_branch ngr ch i g y s c)
      (fun n '(t, w, low, z) => exists news, w = news ++ w0 /\ shape t = shape t0 /\
        (forall f b, code f <> (i, c) \/ n <= b -> child t f b = child t0 f b) /\
        (forall b, b < n -> bok g y s c b t news) /\
        (forall p, p ∈ news -> exists b, b < n /\ newp g y s c b p) /\
        NoDup (map p_src news) /\
        low <= low0 /\ (forall p, p ∈ news -> low <= p_lv p)) a (t0, w0, low0, true))
      as ([[[t w] low] z] & E & news & -> & H).
    - exists []. split_and!; try done; try (intros; lia).
      + intros p Hp. by apply elem_of_nil in Hp.
      + constructor.
      + intros p Hp. by apply elem_of_nil in Hp.
    - intros b [[[t w] low] z] Hb (news & -> & I1 & I2 & I3 & I4 & I5 & I6 & I7).
      destruct (Hch i g s b HR Hb) as (cd & g' & s' & Ec & Hcd & HR'). unfold pass2_branch.
      rewrite Ec. cbn [mbind option_bind].
      assert (is_Some (child t (mk i c) b)) as Hc. { rewrite I2 by (right; lia). by apply Hex. }
      assert (forall x t', shape t' = shape t ->
        (forall f' b', child t' f' b' = if bool_decide (code f' = code (mk i c) /\ b' = b) then Some x else child t f' b') ->
        (cd = 0%Z /\ x = n0 \/ (cd < 0)%Z /\ x = n1) ->
        (forall f b0, code f <> (i, c) \/ Datatypes.S b <= b0 -> child t' f b0 = child t0 f b0) /\
        (forall b0, b0 < Datatypes.S b -> bok g y s c b0 t' news)) as Hterm.
      { intros x t' Hs Hch' Hx. split.
        - intros f b0 Hf. rewrite Hch'. rewrite bool_decide_eq_false_2.
          + apply I2. destruct Hf; [by left|right; lia].
          + intros [Hcf ->]. destruct Hf; [done|lia].
        - intros b0 Hb0. destruct (decide (b0 = b)) as [->|].
          + exists cd, g', s'. split; [done|]. rewrite Hch', bool_decide_eq_true_2 by done.
            destruct Hx as [[? ->]|[? ->]]; [by left|right; by left].
          + destruct (I3 b0 ltac:(lia)) as (cd0 & g0 & s0 & E0 & H0). exists cd0, g0, s0. split; [done|].
            rewrite Hch'. rewrite bool_decide_eq_false_2; [done|]. intros [_ ?]; lia. }
      destruct (Z.eqb_spec cd 0) as [E0|E0].
      { destruct (tset_child_ok t (mk i c) b n0 Hc) as (t' & -> & Hs & Hch'). cbn [mbind option_bind].
        eexists. split; [done|]. cbn beta iota. exists news.
        destruct (Hterm n0 t' Hs Hch') as [T1 T2]; [by left|]. split_and!; try done.
        - by rewrite Hs.
        - intros p Hp. destruct (I4 p Hp) as (b0 & ? & ?). exists b0. split; [lia|done]. }
      destruct (Z.ltb_spec cd 0) as [E1|E1].
      { destruct (tset_child_ok t (mk i c) b n1 Hc) as (t' & -> & Hs & Hch'). cbn [mbind option_bind].
        eexists. split; [done|]. cbn beta iota. exists news.
        destruct (Hterm n1 t' Hs Hch') as [T1 T2]; [by right|]. split_and!; try done.
        - by rewrite Hs.
        - intros p Hp. destruct (I4 p Hp) as (b0 & ? & ?). exists b0. split; [lia|done]. }
      destruct HR' as [Hg' HR']; [lia|].
      destruct (Nat.ltb_spec (Z.to_nat cd) i); [|lia]. destruct (Nat.ltb_spec g' (ngr (Z.to_nat cd))); [|lia].
      cbn [andb]. eexists. split; [done|]. cbn beta iota.
      exists (Pn (Z.to_nat cd) g' y (SBr i c b) s' :: news). split_and!; try done.
      + intros f b0 Hf. apply I2. destruct Hf; [by left|right; lia].
      + intros b0 Hb0. destruct (decide (b0 = b)) as [->|].
        * exists cd, g', s'. split; [done|]. right. right. split; [lia|]. by left.
        * destruct (I3 b0 ltac:(lia)) as (cd0 & g0 & s0 & ? & HH). exists cd0, g0, s0. split; [done|].
          destruct HH as [?|[?|[? ?]]]; [by left|right; by left|right; right]. split; [done|by right].
      + intros p Hp. apply elem_of_cons in Hp as [->|Hp].
        * exists b. split; [lia|]. exists cd, g', s'. split_and!; try done; lia.
        * destruct (I4 p Hp) as (b0 & ? & ?). exists b0. split; [lia|done].
      + cbn [map p_src]. constructor; [|done]. intros Hin. apply elem_of_list_fmap in Hin as (p & Ep & Hp).
        destruct (I4 p Hp) as (b0 & Hb0 & cd0 & g0 & s0 & _ & _ & _ & _ & ->). simpl in Ep. inversion Ep. lia.
      + lia.
      + intros p Hp. apply elem_of_cons in Hp as [->|Hp]; simpl; [lia|]. pose proof (I7 p Hp). lia.
    - destruct H as (I1 & I2 & I3 & I4 & I5 & I6 & I7). exists t, news, low, z.
      split_and!; try done. intros f b Hf. apply I2. by left.
  Qed.

  (** flattened list of pending nodes to expand: ((group, thread), (pending node, id)) *)
  Definition flat := list ((nat * nat) * (pnode S * nid)).
  Definition flat_live (L : flat) : flat := List.filter (fun x => negb (neqb (snd (snd x)) n1)) L.
  Definition flat_step acc (x : (nat * nat) * (pnode S * nid)) :=
    pass2_node a ngr ch i (fst (fst x)) (snd (fst x)) acc (snd x).

  Lemma pass2_flat (L : flat) t0 w0 :
    (forall g y p f, ((g, y), (p, f)) ∈ L -> R i g (p_st p)) ->
    (forall g y p f, ((g, y), (p, f)) ∈ flat_live L -> row f = i /\ forall b, b < a -> is_Some (child t0 f b)) ->
    NoDup (map (fun x => col (snd (snd x))) (flat_live L)) ->
    exists t news low dead, ofold flat_step L (t0, w0, i - 1, 0) = Some (t, news ++ w0, low, dead) /\
      shape t = shape t0 /\
      (forall f b, row f <> i -> child t f b = child t0 f b) /\
      (forall g y p f b, ((g, y), (p, f)) ∈ flat_live L -> b < a -> bok g y (p_st p) (col f) b t news) /\
      (forall p, p ∈ news -> exists g y q f b, ((g, y), (q, f)) ∈ flat_live L /\ b < a /\ newp g y (p_st q) (col f) b p) /\
      NoDup (map p_src news) /\
      low <= i - 1 /\ (forall p, p ∈ news -> low <= p_lv p) /\
      dead <= length (flat_live L).
  Proof.
    intros HR Hrow Hnd.
    destruct (ofold_inv flat_step
      (fun pre '(t, w, low, dead) => exists news, w = news ++ w0 /\ shape t = shape t0 /\
        (forall f b, (row f <> i \/ col f ∉ map (fun x => col (snd (snd x))) (flat_live pre)) -> child t f b = child t0 f b) /\
        (forall g y p f b, ((g, y), (p, f)) ∈ flat_live pre -> b < a -> bok g y (p_st p) (col f) b t news) /\
        (forall p, p ∈ news -> exists g y q f b, ((g, y), (q, f)) ∈ flat_live pre /\ b < a /\ newp g y (p_st q) (col f) b p) /\
        NoDup (map p_src news) /\
        low <= i - 1 /\ (forall p, p ∈ news -> low <= p_lv p) /\ dead <= length (flat_live pre))
      L (t0, w0, i - 1, 0)) as ([[[t w] low] dead] & E & news & -> & H).
    - exists []. split_and!; try done; simpl; try (intros; lia).
      + intros g y p f b Hp. by apply elem_of_nil in Hp.
      + intros p Hp. by apply elem_of_nil in Hp.
      + constructor.
      + intros p Hp. by apply elem_of_nil in Hp.
    - intros pre [[g y] [p f]] post [[[t w] low] dead] Hl (news & -> & I1 & I2 & I3 & I4 & I5 & I6 & I7 & I8).
      unfold flat_step. cbn [fst snd]. unfold pass2_node.
      assert (flat_live (pre ++ [(g, y, (p, f))]) = flat_live pre ++ (if neqb f n1 then [] else [(g, y, (p, f))])) as Hfl.
      { unfold flat_live. rewrite List.filter_app. f_equal. simpl. by destruct (neqb f n1). }
      destruct (neqb f n1) eqn:Ef.
      { rewrite app_nil_r in Hfl. eexists. split; [done|]. cbn beta iota. exists news. rewrite Hfl. split_and!; done. }
      assert ((g, y, (p, f)) ∈ flat_live L) as HinL.
      { rewrite Hl. unfold flat_live. rewrite List.filter_app. apply elem_of_app. right. simpl. rewrite Ef. simpl. left. }
      destruct (Hrow g y p f HinL) as [Hrf Hex].
      assert (col f ∉ map (fun x => col (snd (snd x))) (flat_live pre)) as Hfresh.
      { rewrite Hl in Hnd. unfold flat_live in Hnd. rewrite List.filter_app, map_app in Hnd.
        apply NoDup_app in Hnd as (_ & Hd & _). intros Hin. apply (Hd _ Hin). simpl. rewrite Ef. simpl. left. }
      destruct (pass2_branches g y (p_st p) (col f) t (news ++ w0) low) as
        (t' & news' & low' & z & -> & J1 & J2 & J3 & J4 & J5 & J6 & J7).
      { apply (HR g y p f). rewrite Hl. apply elem_of_app. right. left. }
      { intros b Hb. assert (child t (mk i (col f)) b = child t0 f b) as ->; [|by apply Hex].
        rewrite (child_code t (mk i (col f)) f) by (unfold code; simpl; congruence). apply I2. by right. }
      { lia. }
      cbn [mbind option_bind]. eexists. split; [done|]. cbn beta iota. exists (news' ++ news). rewrite Hfl.
      split_and!.
      + by rewrite app_assoc.
      + by rewrite J1.
      + intros f' b Hf'. rewrite map_app in Hf'. simpl in Hf'. rewrite J2.
        * apply I2. destruct Hf' as [?|Hf']; [by left|right]. intros ?. apply Hf'. apply elem_of_app. by left.
        * intros Hc. inversion Hc as [[H1 H2]]. destruct Hf' as [?|Hf']; [done|]. apply Hf', elem_of_app. right.
          rewrite H2. left.
      + intros g0 y0 p0 f0 b Hin Hb. apply elem_of_app in Hin as [Hin|Hin].
        * destruct (I3 g0 y0 p0 f0 b Hin Hb) as (cd & g' & s' & Ec & HH). exists cd, g', s'. split; [done|].
          assert (child t' (mk i (col f0)) b = child t (mk i (col f0)) b) as ->.
          { apply J2. intros Hc. inversion Hc as [[H2]]. apply Hfresh. rewrite <- H2. apply elem_of_list_fmap.
            by exists (g0, y0, (p0, f0)). }
          destruct HH as [?|[?|[? ?]]]; [by left|right; by left|right; right]. split; [done|]. apply elem_of_app. by right.
        * apply elem_of_list_singleton in Hin. inversion Hin; subst g0 y0 p0 f0.
          destruct (J3 b Hb) as (cd & g' & s' & Ec & HH). exists cd, g', s'. split; [done|].
          destruct HH as [?|[?|[? ?]]]; [by left|right; by left|right; right]. split; [done|]. apply elem_of_app. by left.
      + intros q Hq. apply elem_of_app in Hq as [Hq|Hq].
        * destruct (J4 q Hq) as (b & Hb & Hn). exists g, y, p, f, b. split_and!; try done. apply elem_of_app. right. left.
        * destruct (I4 q Hq) as (g0 & y0 & q0 & f0 & b & Hin & Hb & Hn). exists g0, y0, q0, f0, b.
          split_and!; try done. apply elem_of_app. by left.
      + rewrite map_app. apply NoDup_app. split_and!; try done.
        intros x Hx Hx'. apply elem_of_list_fmap in Hx as (q & -> & Hq), Hx' as (q' & Eq & Hq').
        destruct (J4 q Hq) as (b & _ & cd & g' & s' & _ & _ & _ & _ & ->).
        destruct (I4 q' Hq') as (g0 & y0 & q0 & f0 & b' & Hin & _ & cd0 & g1 & s1 & _ & _ & _ & _ & ->).
        simpl in Eq. inversion Eq as [[H1 H2]]. apply Hfresh. rewrite H1. apply elem_of_list_fmap.
        by exists (g0, y0, (q0, f0)).
      + lia.
      + intros q Hq. apply elem_of_app in Hq as [Hq|Hq]; [by apply J7|]. pose proof (I7 q Hq). lia.
      + rewrite app_length. simpl. destruct z; lia.
    - destruct H as (I1 & I2 & I3 & I4 & I5 & I6 & I7 & I8). exists t, news, low, dead.
      split_and!; try done. intros f b Hf. apply I2. by left.
  Qed.
End pass2.
