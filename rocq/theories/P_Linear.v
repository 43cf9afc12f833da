(** LinearConstraints: the checklists after addConstraint and update. *)
From stdpp Require Import sorting.
From Verif Require Import Base Sem M_Size M_Linear S_Spec P_Size.
Local Open Scope nat_scope.

Notation lcon := (lin_expr * Z * Z)%type.
Notation ce c := (fst (fst c)).
Definition below (l : nat) (e : lin_expr) : lin_expr := filter (fun kw => fst kw < l) e.
Definition above (l : nat) (e : lin_expr) : lin_expr := filter (fun kw => l <= fst kw) e.
Definition at_ (l : nat) (e : lin_expr) : lin_expr := filter (fun kw => fst kw = l) e.
Definition bnd (e : lin_expr) : Z * Z := foldl (fun mm kw => add_bounds mm (snd kw)) (0, 0)%Z e.

Definition item_of (i : nat) (c : lcon) (e' : lin_expr) (l : nat) : list check_item :=
  map (fun kw => CheckItem i (snd kw) (fst (bnd (below l (ce c)))) (snd (bnd (below l (ce c))))
                  (snd (fst c)) (snd c) (bool_decide (below l (ce c) = []))) (at_ l e').
Fixpoint items (i : nat) (K : list lcon) (l : nat) : list check_item :=
  match K with [] => [] | c :: K' => item_of i c (ce c) l ++ items (S i) K' l end.

Lemma items_app i K K' l : items i (K ++ K') l = items i K l ++ items (i + length K) K' l.
Proof.
  revert i; induction K as [|c K IH]; intros i; cbn [items app length]; [by rewrite Nat.add_0_r|].
  rewrite IH, <- app_assoc. do 3 f_equal. lia.
Qed.
Lemma bnd_snoc e k w : bnd (e ++ [(k, w)]) = add_bounds (bnd e) w.
Proof. unfold bnd. by rewrite foldl_app. Qed.
Lemma lin_value_app v e e' : lin_value v (e ++ e') = (lin_value v e + lin_value v e')%Z.
Proof. induction e as [|[k w] e IH]; cbn [app lin_value]; [lia|]. rewrite IH. lia. Qed.
Lemma bnd_range v e : (fst (bnd e) <= lin_value v e <= snd (bnd e))%Z.
Proof.
  induction e as [|[k w] e IH] using rev_ind; [simpl; lia|]. rewrite bnd_snoc, lin_value_app. cbn [lin_value].
  unfold add_bounds. destruct (Z.ltb_spec 0 w); cbn [fst snd]; [destruct (v k =? 0); lia|].
  destruct (Z.ltb_spec w 0); cbn [fst snd]; destruct (v k =? 0); lia.
Qed.

Lemma below_sorted pre k w post :
  StronglySorted (fun a b : nat * Z => fst a < fst b) (pre ++ (k, w) :: post) ->
  below k (pre ++ (k, w) :: post) = pre.
Proof.
  intros Hs. unfold below. rewrite filter_app, filter_cons_False by (simpl; lia).
  assert (filter (fun kw : nat * Z => fst kw < k) pre = pre) as ->.
  { apply list_filter_all || idtac. induction pre as [|x pre IH]; [done|]. inversion Hs; subst.
    rewrite filter_cons_True; [f_equal; by apply IH|]. rewrite Forall_app in H2. destruct H2 as [_ H2].
    by inversion H2; subst. }
  assert (filter (fun kw : nat * Z => fst kw < k) post = []) as ->; [|by rewrite app_nil_r].
  assert (Forall (fun kw : nat * Z => k < fst kw) post) as Hp.
  { clear -Hs. induction pre as [|x pre IH]; inversion Hs; subst; [done|by apply IH]. }
  clear -Hp. induction Hp as [|x post Hx Hp IH]; [done|]. rewrite filter_cons_False by lia. done.
Qed.

(** state of the object while constraints are added *)
Record adds (n : nat) (K : list lcon) (L : lin) : Prop := {
  ad_n : lin_n L = n;
  ad_len : length (checklists L) = S n;
  ad_list : forall l, l <= n -> checklists L !! l = Some (items 0 K l);
  ad_id : constraintId L = length K;
  ad_size : arraySize L = 0;
  ad_pod : podSize L = None;
  ad_wf : Forall (fun c => lin_wf n c /\ ce c <> []) K
}.

Lemma add_push n K L e lb ub : adds n K L -> lin_wf n (e, lb, ub) ->
  exists lists mm fc,
    ofold (fun st kw =>
        let '(lists, mm, fc) := st in
        l ← (lists : list (list check_item)) !! (fst kw : nat);
        Some (<[fst kw := l ++ [CheckItem (constraintId L) (snd kw) (fst mm) (snd mm) lb ub fc]]> lists,
              add_bounds mm (snd kw), false))
      e (checklists L, (0, 0)%Z, true) = Some (lists, mm, fc) /\
    length lists = S n /\
    forall l, l <= n -> lists !! l = Some (items 0 (K ++ [(e, lb, ub)]) l).
Proof.
  intros HA [Hs Hr]. cbn [fst snd] in Hs, Hr.
  destruct (ofold_inv (fun st kw =>
        let '(lists, mm, fc) := st in
        l ← (lists : list (list check_item)) !! (fst kw : nat);
        Some (<[fst kw := l ++ [CheckItem (constraintId L) (snd kw) (fst mm) (snd mm) lb ub fc]]> lists,
              add_bounds mm (snd kw), false))
     (fun pre st => let '(lists, mm, fc) := st in length lists = S n /\ mm = bnd pre /\ fc = bool_decide (pre = []) /\
        forall l, l <= n -> lists !! l = Some (items 0 K l ++ item_of (length K) (e, lb, ub) pre l))
     e (checklists L, (0, 0)%Z, true)) as ([[lists mm] fc] & Hrun & HP).
  - split_and!; [apply HA|done|done|]. intros l Hl. cbn [item_of at_ filter]. rewrite (ad_list _ _ _ HA) by done.
    unfold item_of. simpl. by rewrite app_nil_r.
  - intros pre [k w] post [[lists mm] fc] He (Hl & -> & -> & Hlist). cbn [fst snd] in *.
    assert (1 <= k <= n) as Hk.
    { rewrite He, Forall_app, Forall_cons in Hr. apply Hr. }
    rewrite (Hlist k) by lia. cbn [mbind option_bind]. eexists. split; [reflexivity|].
    cbv beta iota. rewrite insert_length, bnd_snoc. split_and!; [done|done| |].
    { symmetry. apply bool_decide_eq_false. by destruct pre. }
    intros l Hl'. unfold item_of, at_. rewrite filter_app, map_app, app_assoc.
    destruct (decide (k = l)) as [->|NE].
    + rewrite list_lookup_insert by lia. rewrite filter_cons_True by done. cbn [filter list_filter map fst snd].
      rewrite He in Hs. rewrite He, (below_sorted pre l w post Hs).
      rewrite (ad_id _ _ _ HA). done.
    + rewrite list_lookup_insert_ne by done. rewrite Hlist by done. rewrite filter_cons_False by done.
      cbn [filter list_filter map]. by rewrite app_nil_r.
  - destruct HP as (HP1 & _ & _ & HP2). exists lists, mm, fc. split_and!; [done|done|].
    intros l Hl. rewrite HP2 by done. rewrite items_app. cbn [items Nat.add]. by rewrite app_nil_r.
Qed.

(** what has been added so far is equivalent to the kept constraints, or unsatisfiable *)
Definition added (n : nat) (cs : list lcon) (L : lin) : Prop :=
  exists K, adds n K L /\
  if isFalse L then forall v, ~ Forall (lin_sat v) cs
  else forall v, Forall (lin_sat v) cs <-> Forall (lin_sat v) K.

Lemma lin_add_ok n cs L c : added n cs L -> lin_wf n c ->
  exists L', lin_add L (ce c) (snd (fst c)) (snd c) = Some L' /\ added n (cs ++ [c]) L'.
Proof.
  intros (K & HA & HK) Hwf. destruct c as [[e lb] ub]. cbn [fst snd]. unfold lin_add.
  destruct (isFalse L) eqn:EF.
  { exists L. split; [done|]. exists K. rewrite EF. split; [done|]. intros v Hv.
    rewrite Forall_app in Hv. destruct Hv as [Hv _]. by apply (HK v Hv). }
  fold (bnd e).
  destruct ((lb <=? fst (bnd e))%Z && (snd (bnd e) <=? ub)%Z) eqn:E1.
  { exists L. split; [done|]. exists K. rewrite EF. split; [done|]. intros v. rewrite Forall_app, HK, Forall_singleton.
    apply andb_true_iff in E1 as [E1 E2]. apply Z.leb_le in E1, E2. pose proof (bnd_range v e).
    split; [tauto|]. intros H'. split; [done|]. unfold lin_sat. cbn [fst snd]. lia. }
  destruct ((ub <? lb)%Z || (snd (bnd e) <? lb)%Z || (ub <? fst (bnd e))%Z) eqn:E2.
  { eexists. split; [done|]. exists K. cbn [isFalse]. split.
    - destruct HA. by constructor.
    - intros v. rewrite Forall_app, Forall_singleton. intros [_ Hs]. unfold lin_sat in Hs. cbn [fst snd] in Hs.
      pose proof (bnd_range v e). rewrite !orb_true_iff, !Z.ltb_lt in E2. lia. }
  destruct e as [|kw e'] eqn:Ee.
  { exfalso. unfold bnd in *. cbn [foldl fst snd] in *. rewrite !orb_false_iff, !Z.ltb_ge in E2.
    rewrite andb_false_iff, !Z.leb_gt in E1. lia. }
  rewrite <- Ee in *. destruct (add_push n K L e lb ub HA Hwf) as (lists & mm & fc & Hrun & Hlen & Hlist).
  rewrite Hrun. cbn [mbind option_bind]. eexists. split; [reflexivity|].
  exists (K ++ [(e, lb, ub)]). cbn [isFalse]. split.
  - constructor; cbn [lin_n checklists constraintId arraySize podSize]; [apply HA|done|done| |apply HA|apply HA|].
    + rewrite app_length, (ad_id _ _ _ HA). simpl. lia.
    + apply Forall_app. split; [apply HA|]. apply Forall_singleton. split; [done|]. cbn [fst]. by rewrite Ee.
  - intros v. by rewrite !Forall_app, HK.
Qed.

Lemma lin_adds_ok n cs : Forall (lin_wf n) cs ->
  exists L, ofold (fun L c => lin_add L (fst (fst c)) (snd (fst c)) (snd c)) cs (lin_new n) = Some L /\ added n cs L.
Proof.
  intros Hwf. apply (ofold_inv _ (fun pre L => added n pre L)).
  - exists []. cbn [lin_new isFalse]. split; [|done]. constructor; cbn [lin_new lin_n checklists constraintId arraySize podSize]; try done.
    + by rewrite replicate_length.
    + intros l Hl. cbn [items]. apply lookup_replicate_2. lia.
  - intros pre c post L Hcs HL. apply lin_add_ok; [done|]. rewrite Hcs, Forall_app, Forall_cons in Hwf. apply Hwf.
Qed.

(** ** update *)
Definition has_at (l : nat) (c : lcon) : Prop := exists kw, kw ∈ ce c /\ fst kw = l.
Definition has_below (l : nat) (c : lcon) : Prop := exists kw, kw ∈ ce c /\ fst kw < l.
Definition has_above (l : nat) (c : lcon) : Prop := exists kw, kw ∈ ce c /\ l <= fst kw.
Definition spans (K : list lcon) (l : nat) (i : nat) : Prop := exists c, K !! i = Some c /\ has_below (S l) c /\ has_above l c.

Definition relab (M : nat -> nat) (t : check_item) : check_item :=
  CheckItem (M (ci_index t)) (ci_weight t) (ci_addMin t) (ci_addMax t) (ci_lb t) (ci_ub t) (ci_final t).

Lemma item_of_index i c e' l t : t ∈ item_of i c e' l -> ci_index t = i.
Proof. unfold item_of. intros Ht. apply elem_of_list_fmap in Ht as (kw & -> & _). done. Qed.
Lemma items_index j K l t : t ∈ items j K l ->
  exists i c, ci_index t = j + i /\ K !! i = Some c /\ has_at l c /\ ci_final t = bool_decide (below l (ce c) = []).
Proof.
  revert j; induction K as [|c K IH]; intros j; cbn [items]; [intros H; by apply elem_of_nil in H|].
  rewrite elem_of_app. intros [Ht|Ht].
  - unfold item_of in Ht. apply elem_of_list_fmap in Ht as (kw & -> & Hk). exists 0, c. cbn [ci_index ci_final].
    split_and!; [lia|done| |done]. unfold at_ in Hk. apply elem_of_list_filter in Hk as [E Hk]. exists kw. done.
  - destruct (IH (S j) Ht) as (i & c' & E & Hc & H1 & H2). exists (S i), c'. split_and!; [lia|done..].
Qed.
Lemma at_single l (e : lin_expr) : StronglySorted (fun a b => fst a < fst b) e ->
  at_ l e = [] \/ exists w, at_ l e = [(l, w)].
Proof.
  intros Hs. induction Hs as [|[k w] e Hs IH Hf]; [by left|]. unfold at_ in *.
  destruct (decide (k = l)) as [->|NE].
  - rewrite filter_cons_True by done. right. exists w. f_equal.
    clear -Hf. induction Hf as [|x e Hx Hf IH]; [done|]. simpl in Hx. rewrite filter_cons_False by lia. done.
  - rewrite filter_cons_False by done. done.
Qed.
Lemma items_nodup n j K l : Forall (fun c => lin_wf n c /\ ce c <> []) K -> NoDup (map ci_index (items j K l)).
Proof.
  revert j; induction K as [|c K IH]; intros j HK; cbn [items map]; [constructor|].
  apply Forall_cons in HK as [[[Hs _] _] HK]. rewrite map_app. apply NoDup_app. split_and!.
  - unfold item_of. destruct (at_single l (ce c) Hs) as [->|[w ->]]; simpl; repeat constructor. intros H; by apply elem_of_nil in H.
  - intros x Hx Hy. apply elem_of_list_fmap in Hx as (t & -> & Ht). apply item_of_index in Ht.
    apply elem_of_list_fmap in Hy as (t' & E & Ht'). apply items_index in Ht' as (i & c' & E' & _). lia.
  - by apply IH.
Qed.
