(** Proofs about DdStructure::evaluate. *)
From Verif Require Import Base Sem M_Table M_Index P_Index M_Eval.
Local Open Scope nat_scope.

Section eval.
  Context (ev : evaluator) (a : nat) (t : table) (Hwf : table_wf a t) (n : nat) (Hn : n < length t).
  (** state invariant, and the relation between a reference and its value *)
  Context (I : ES ev -> Prop) (Q : nat -> nat -> ET ev -> Prop).
  Context (Hterm : forall e j, I e -> j < 2 -> exists e' v, e_term ev e j = Some (e', v) /\ I e' /\ Q 0 j v).
  Context (Hnode : forall e i j p vs, I e -> 0 < i <= n -> tget t (mk i j) = Some p ->
    Forall2 (fun g x => snd x = row g /\ row g < i /\ Q (row g) (col g) (fst x)) p vs ->
    exists e' v, e_node ev e i vs = Some (e', v) /\ I e' /\ Q i j v).
  Context (Hdes : forall e i, I e -> exists e', e_destruct ev e i = Some e' /\ I e').
  Context (hi lo : list (list nat)) (Hix : index_ok t hi lo).

  Notation work := (list (list (option (ET ev)))).

  (** rows below i have been evaluated; a row that was cleared is not needed at level i or above *)
  Definition row_done (r : nat) (x : list (option (ET ev))) : Prop :=
    exists y, t !! r = Some y /\ length x = length y /\
      forall c, c < length y -> exists v, x !! c = Some (Some v) /\ Q r c v.
  Record winv (i : nat) (w : work) : Prop := {
    wi_len : length w = length t;
    wi_done : forall r, r < i -> r < length t -> exists x, w !! r = Some x /\
      (row_done r x \/ 0 < r /\ forall i', i <= i' < length t -> ~ refs t i' r);
    wi_last : 0 < i -> i <= length t -> exists x, w !! (i - 1) = Some x /\ row_done (i - 1) x
  }.

  Lemma winv_get i w c p b g : winv i w -> 0 < i -> tget t (mk i c) = Some p -> p !! b = Some g ->
    exists v, wget ev w g = Some v /\ row g < i /\ Q (row g) (col g) v.
  Proof.
    intros HW Hi Hp Hg. unfold tget in Hp. cbn [row col mk] in Hp.
    destruct (t !! i) as [r|] eqn:Hr; [|done]. cbn [mbind option_bind] in Hp.
    destruct (wf_child a t Hwf i r c p b g Hi Hr Hp Hg) as [Hlt Hv].
    pose proof (lookup_lt_Some _ _ _ Hr) as Hil.
    destruct (wi_done i w HW (row g) Hlt ltac:(lia)) as (x & Hx & [(y & Hy & Hl & Hq)|[H0 Hno]]).
    - assert (col g < length y) as Hc.
      { unfold valid in Hv. destruct (Nat.eqb_spec (row g) 0) as [E|E].
        - rewrite E in Hy. destruct (wf_term a t Hwf) as (r0 & Hr0 & Hl0 & _). assert (y = r0) as -> by congruence. lia.
        - destruct Hv as [q Hv]. unfold tget in Hv. rewrite Hy in Hv. by apply lookup_lt_Some in Hv. }
      destruct (Hq _ Hc) as (v & Hxv & HQ). exists v. split; [|done]. unfold wget. rewrite Hx.
      cbn [mbind option_bind]. by rewrite Hxv.
    - exfalso. apply (Hno i); [lia|]. exists c, b, g. split; [|done]. unfold child, tget. cbn [row col mk].
      rewrite Hr. cbn [mbind option_bind]. rewrite Hp. done.
  Qed.

  (** the level being filled: [D] is the set of finished columns *)
  Record wcur (i : nat) (D : nat -> Prop) (w : work) : Prop := {
    wc_low : winv i w;
    wc_row : exists x y, w !! i = Some x /\ t !! i = Some y /\ length x = length y /\
      forall c, c < length y -> D c -> exists v, x !! c = Some (Some v) /\ Q i c v
  }.

  Lemma winv_upper i w x : winv i w -> i < length t -> winv i (<[i := x]> w).
  Proof.
    intros [W1 W2 W3] Hi. constructor.
    - by rewrite insert_length.
    - intros r Hr Hrl. destruct (W2 r Hr Hrl) as (z & Hz & ?). exists z. split; [|done]. by rewrite list_lookup_insert_ne by lia.
    - intros H0 Hle. destruct (W3 H0 Hle) as (z & Hz & ?). exists z. split; [|done]. by rewrite list_lookup_insert_ne by lia.
  Qed.

  Lemma wcur_start i w y : winv i w -> t !! i = Some y -> i < length t ->
    wcur i (fun _ => False) (<[i := replicate (length y) None]> w).
  Proof.
    intros HW Hy Hi. constructor; [by apply winv_upper|].
    exists (replicate (length y) None), y. rewrite list_lookup_insert by (rewrite (wi_len i w HW); lia).
    rewrite replicate_length. split_and!; try done.
  Qed.

  Lemma eval_at_ok i D w e j y : wcur i D w -> I e -> 0 < i <= n -> t !! i = Some y -> j < length y ->
    exists e' w', eval_at ev t i (e, w) j = Some (e', w') /\ I e' /\ wcur i (fun c => D c \/ c = j) w'.
  Proof.
    intros [HW (x & y' & Hx & Hy' & Hl & HD)] He Hi Hy Hj. assert (y' = y) as -> by congruence. clear Hy'.
    destruct (lookup_lt_is_Some_2 y j Hj) as [p Hp].
    assert (tget t (mk i j) = Some p) as Htg by (unfold tget; cbn [row col mk]; by rewrite Hy).
    unfold eval_at. rewrite Htg. cbn [mbind option_bind].
    assert (exists vs, mapM (fun f => v ← wget ev w f; Some (v, row f)) p = Some vs /\
      Forall2 (fun g x => snd x = row g /\ row g < i /\ Q (row g) (col g) (fst x)) p vs) as (vs & -> & Hvs).
    { assert (forall q, (forall g, g ∈ q -> g ∈ p) -> exists vs, mapM (fun f => v ← wget ev w f; Some (v, row f)) q = Some vs /\
        Forall2 (fun g x => snd x = row g /\ row g < i /\ Q (row g) (col g) (fst x)) q vs) as G.
      { induction q as [|g q IH]; intros Hsub; [exists []; split; [done|constructor]|].
        destruct IH as (vs & E & F); [intros; apply Hsub; by right|].
        destruct (elem_of_list_lookup_1 p g) as [b Hb]; [apply Hsub; by left|].
        destruct (winv_get i w j p b g HW ltac:(lia) Htg Hb) as (v & Hv & Hlt & HQ).
        exists ((v, row g) :: vs). split; [|by constructor].
        cbn [mapM]. rewrite Hv. cbn [mbind option_bind]. by rewrite E. }
      by apply G. }
    cbn [mbind option_bind].
    destruct (Hnode e i j p vs He Hi Htg Hvs) as (e' & v & -> & He' & HQ). cbn [mbind option_bind].
    assert (is_Some (x !! j)) as [o Ho] by (apply lookup_lt_is_Some; lia).
    unfold wset. rewrite Hx. cbn [mbind option_bind]. rewrite Ho. cbn [mbind option_bind].
    eexists _, _. split; [done|]. split; [done|]. constructor.
    - apply winv_upper; [done|]. by apply lookup_lt_Some in Hy.
    - exists (<[j := Some v]> x), y. apply lookup_lt_Some in Hx as Hxl.
      rewrite list_lookup_insert by done. rewrite insert_length. split_and!; try done.
      intros c Hc Hd. destruct (decide (c = j)) as [->|Hne].
      + rewrite list_lookup_insert by lia. by exists v.
      + destruct Hd as [Hd|]; [|done]. rewrite list_lookup_insert_ne by done. by apply HD.
  Qed.

  Lemma wcur_done i w : wcur i (fun c => c < length (default [] (t !! i))) w -> i < length t -> winv (S i) w.
  Proof.
    intros [HW (x & y & Hx & Hy & Hl & HD)] Hi. rewrite Hy in HD. cbn [default] in HD.
    assert (row_done i x) as Hrd.
    { exists y. split_and!; try done. intros c Hc. by apply HD. }
    constructor; [apply HW| |].
    - intros r Hr Hrl. destruct (decide (r = i)) as [->|].
      + exists x. split; [done|]. by left.
      + destruct (wi_done i w HW r ltac:(lia) Hrl) as (z & Hz & [|[H0 H1]]); [by exists z; eauto|].
        exists z. split; [done|]. right. split; [done|]. intros i' Hi'. apply H1. lia.
    - intros _ _. exists x. rewrite Nat.sub_succ, Nat.sub_0_r. done.
  Qed.

  Lemma wcur_ext i (D D' : nat -> Prop) w : (forall c, c < length (default [] (t !! i)) -> D' c -> D c) ->
    wcur i D w -> wcur i D' w.
  Proof.
    intros H [HW (x & y & Hx & Hy & Hl & HD)]. constructor; [done|]. exists x, y. split_and!; try done.
    intros c Hc Hd. apply HD; [done|]. apply H; [|done]. by rewrite Hy.
  Qed.

  Lemma eval_level_ok i e w : winv i w -> I e -> 0 < i <= n ->
    exists e' w', eval_level ev t i (e, w) = Some (e', w') /\ I e' /\ winv (S i) w'.
  Proof.
    intros HW He Hi. destruct (lookup_lt_is_Some_2 t i ltac:(lia)) as [y Hy].
    unfold eval_level. rewrite Hy. cbn [mbind option_bind].
    destruct (lookup_lt_is_Some_2 w i) as [z Hz]; [rewrite (wi_len i w HW); lia|]. rewrite Hz. cbn [mbind option_bind].
    destruct (ofor_inv (eval_at ev t i) (fun j acc => I (fst acc) /\ wcur i (fun c => c < j) (snd acc)) (length y)
      (e, <[i := replicate (length y) None]> w)) as ([e' w'] & E & He' & Hw').
    - split; [done|]. eapply wcur_ext; [|apply wcur_start; [exact HW|exact Hy|lia]]. cbn beta. lia.
    - intros j [e1 w1] Hj [He1 Hw1]. cbn [fst snd] in *.
      destruct (eval_at_ok i _ w1 e1 j y Hw1 He1 Hi Hy Hj) as (e2 & w2 & E & He2 & Hw2).
      exists (e2, w2). split; [done|]. split; [done|]. cbn [snd]. eapply wcur_ext; [|exact Hw2]. cbn beta. lia.
    - exists e', w'. split; [done|]. split; [done|]. apply wcur_done; [|lia]. rewrite Hy. done.
  Qed.

  Lemma eval_level_mp_ok i asg ord es w : winv i w -> Forall I es -> 0 < i <= n ->
    (forall j, asg j < length es) ->
    (forall y, t !! i = Some y -> ord ≡ₚ seq 0 (length y)) ->
    exists es' w', eval_level_mp ev t i asg ord (es, w) = Some (es', w') /\ Forall I es' /\
      length es' = length es /\ winv (S i) w'.
  Proof.
    intros HW He Hi Ha Hord. destruct (lookup_lt_is_Some_2 t i ltac:(lia)) as [y Hy]. specialize (Hord y Hy).
    unfold eval_level_mp. rewrite Hy. cbn [mbind option_bind].
    destruct (lookup_lt_is_Some_2 w i) as [z Hz]; [rewrite (wi_len i w HW); lia|]. rewrite Hz. cbn [mbind option_bind].
    destruct (ofold_inv (fun '(es, w) j =>
             e ← es !! asg j;
             '(e', w') ← eval_at ev t i (e, w) j;
             Some (<[asg j := e']> es, w'))
      (fun pre acc => Forall I (fst acc) /\ length (fst acc) = length es /\ wcur i (fun c => c ∈ pre) (snd acc)) ord
      (es, <[i := replicate (length y) None]> w)) as ([es' w'] & E & He' & Hl' & Hw').
    - split_and!; [done|done|]. eapply wcur_ext; [|apply wcur_start; [exact HW|exact Hy|lia]]. cbn beta.
      intros c _ Hc. by apply elem_of_nil in Hc.
    - intros pre j post [es1 w1] Heq (He1 & Hl1 & Hw1). cbn [fst snd] in *.
      assert (j < length y) as Hj.
      { assert (j ∈ seq 0 (length y)) as Hin; [|apply elem_of_seq in Hin; lia].
        rewrite <- Hord, Heq. apply elem_of_app. right. by left. }
      destruct (lookup_lt_is_Some_2 es1 (asg j)) as [e1 Hes1]; [rewrite Hl1; apply Ha|].
      rewrite Hes1. cbn [mbind option_bind].
      assert (I e1) as Hi1 by (eapply Forall_lookup_1; [exact He1|exact Hes1]).
      destruct (eval_at_ok i _ w1 e1 j y Hw1 Hi1 Hi Hy Hj) as (e2 & w2 & -> & He2 & Hw2).
      cbn [mbind option_bind]. eexists. split; [done|]. cbn [fst snd]. split_and!.
      + by apply Forall_insert.
      + by rewrite insert_length.
      + eapply wcur_ext; [|exact Hw2]. cbn beta. intros c _ Hc. apply elem_of_app in Hc as [|Hc]; [by left|].
        right. by apply elem_of_list_singleton in Hc.
    - exists es', w'. split; [done|]. split_and!; [done|done|]. apply wcur_done; [|lia].
      eapply wcur_ext; [|exact Hw']. rewrite Hy. intros c Hc _. simpl in Hc. rewrite Hord. apply elem_of_seq. lia.
  Qed.

  Lemma clear_rows_ok i L e w : lo !! i = Some L -> 0 < i <= n -> winv (S i) w -> I e ->
    exists e' w', clear_rows ev L (e, w) = Some (e', w') /\ I e' /\ winv (S i) w'.
  Proof.
    intros HL Hi HW He. destruct (ix_lo t hi lo Hix i ltac:(lia)) as (L' & HL' & _ & Hmem).
    assert (L' = L) as -> by congruence. unfold clear_rows.
    destruct (ofold_inv (fun '(e, w) r => _ ← w !! r; e' ← e_destruct ev e r; Some (e', <[r := []]> w))
      (fun _ acc => I (fst acc) /\ winv (S i) (snd acc)) L (e, w)) as ([e' w'] & E & He' & Hw').
    - done.
    - intros pre r post [e1 w1] Heq [He1 Hw1]. cbn [fst snd] in *.
      assert (r ∈ L) as Hr by (rewrite Heq; apply elem_of_app; right; by left).
      apply Hmem in Hr as (Hr & Href & Hno).
      destruct (lookup_lt_is_Some_2 w1 r) as [z Hz]; [rewrite (wi_len _ w1 Hw1); lia|]. rewrite Hz. cbn [mbind option_bind].
      destruct (Hdes e1 r He1) as (e2 & -> & He2). cbn [mbind option_bind]. eexists. split; [done|]. cbn [fst snd].
      split; [done|]. destruct Hw1 as [W1 W2 W3]. constructor.
      + by rewrite insert_length.
      + intros r' Hr' Hrl'. destruct (decide (r = r')) as [<-|Hne].
        * exists []. rewrite list_lookup_insert by lia. split; [done|]. right. split; [lia|].
          intros i' Hi'. apply Hno. lia.
        * rewrite list_lookup_insert_ne by done. by apply W2.
      + intros H0 Hle. rewrite list_lookup_insert_ne by lia. by apply W3.
    - by exists e', w'.
  Qed.

  Lemma destruct_all_ok L es : Forall I es -> exists es', destruct_all ev L es = Some es' /\ Forall I es' /\ length es' = length es.
  Proof.
    unfold destruct_all. induction 1 as [|e es He HF IH]; [exists []; split; [done|split; [constructor|done]]|].
    destruct IH as (es' & E & HF' & Hl).
    destruct (ofold_inv (e_destruct ev) (fun _ e => I e) L e) as (e' & E' & He'); [done|intros; by apply Hdes|].
    exists (e' :: es'). cbn [mapM]. rewrite E'. cbn [mbind option_bind]. rewrite E. split; [done|]. split; [by constructor|]. simpl. lia.
  Qed.

  Lemma eval_terminals_ok e : I e -> exists e' w, eval_terminals ev t e (replicate (length t) []) = Some (e', w) /\ I e' /\ winv 1 w.
  Proof.
    intros He. destruct (wf_term a t Hwf) as (y & Hy & Hl & _). pose proof (lookup_lt_Some _ _ _ Hy) as Ht.
    unfold eval_terminals. rewrite Hy. cbn [mbind option_bind].
    rewrite (lookup_replicate_2 (length t) [] 0) by done. cbn [mbind option_bind].
    destruct (ofor_inv (fun '(e, w) j => '(e', v) ← e_term ev e j; w' ← wset ev w 0 j v; Some (e', w'))
      (fun j acc => I (fst acc) /\ wcur 0 (fun c => c < j) (snd acc)) (length y)
      (e, <[0 := replicate (length y) None]> (replicate (length t) []))) as ([e' w'] & E & He' & Hw').
    - split; [done|]. cbn [snd]. eapply wcur_ext; [|apply wcur_start; [|exact Hy|lia]]; [cbn beta; lia|].
      constructor; [by rewrite replicate_length|lia|lia].
    - intros j [e1 w1] Hj [He1 Hw1]. cbn [fst snd] in *.
      destruct (Hterm e1 j He1 ltac:(lia)) as (e2 & v & -> & He2 & HQ). cbn [mbind option_bind].
      destruct Hw1 as [HW (x & y' & Hx & Hy' & Hlx & HD)]. assert (y' = y) as -> by congruence.
      unfold wset. rewrite Hx. cbn [mbind option_bind].
      destruct (lookup_lt_is_Some_2 x j ltac:(lia)) as [o ->]. cbn [mbind option_bind].
      eexists. split; [done|]. split; [done|]. cbn [snd]. constructor; [by apply winv_upper|].
      exists (<[j := Some v]> x), y. rewrite list_lookup_insert by (by apply lookup_lt_Some in Hx).
      rewrite insert_length. split_and!; try done. intros c Hc Hcj. destruct (decide (c = j)) as [->|].
      + rewrite list_lookup_insert by lia. by exists v.
      + rewrite list_lookup_insert_ne by done. apply HD; lia.
    - exists e', w'. split; [done|]. split; [done|]. apply wcur_done; [|lia]. by rewrite Hy.
  Qed.
End eval.

Section whole.
  Context (ev : evaluator) (d : dd) (Hd : dd_wf d).
  Context (I : ES ev -> Prop) (Q : nat -> nat -> ET ev -> Prop) (e0 : ES ev).
  Notation t := (tab d).
  Notation n := (row (rt d)).
  Context (Hinit : exists e, e_init ev e0 n = Some e /\ I e).
  Context (Hterm : forall e j, I e -> j < 2 -> exists e' v, e_term ev e j = Some (e', v) /\ I e' /\ Q 0 j v).
  Context (Hnode : forall e i j p vs, I e -> 0 < i <= n -> tget t (mk i j) = Some p ->
    Forall2 (fun g x => snd x = row g /\ row g < i /\ Q (row g) (col g) (fst x)) p vs ->
    exists e' v, e_node ev e i vs = Some (e', v) /\ I e' /\ Q i j v).
  Context (Hdes : forall e i, I e -> exists e', e_destruct ev e i = Some e' /\ I e').

  Lemma root_row : n < length t.
  Proof.
    destruct Hd as (_ & Hwf & Hv). unfold valid in Hv. destruct (Nat.eqb_spec n 0) as [->|].
    - destruct (wf_term _ _ Hwf) as (r & Hr & _). by apply lookup_lt_Some in Hr.
    - destruct Hv as [p Hp]. unfold tget in Hp. apply bind_Some in Hp as (y & E & _). by apply lookup_lt_Some in E.
  Qed.

  Lemma winv_root w : winv ev t Q (S n) w -> exists v, wget ev w (rt d) = Some v /\ Q n (col (rt d)) v.
  Proof.
    intros HW. pose proof root_row as Hr. destruct (wi_last _ _ _ _ _ HW ltac:(lia) ltac:(lia)) as (x & Hx & y & Hy & Hl & HQ).
    rewrite Nat.sub_succ, Nat.sub_0_r in *.
    assert (col (rt d) < length y) as Hc.
    { destruct Hd as (_ & Hwf & Hv). unfold valid in Hv. destruct (Nat.eqb_spec n 0) as [E|E].
      - rewrite E in Hy. destruct (wf_term _ _ Hwf) as (r0 & Hr0 & Hl0 & _). assert (y = r0) as -> by congruence. lia.
      - destruct Hv as [q Hv]. unfold tget in Hv. rewrite Hy in Hv. by apply lookup_lt_Some in Hv. }
    destruct (HQ _ Hc) as (v & Hv & Hq). exists v. split; [|done]. unfold wget. rewrite Hx. cbn [mbind option_bind].
    by rewrite Hv.
  Qed.

  Lemma evaluate_ok : exists e v, I e /\ Q n (col (rt d)) v /\ evaluate ev e0 d = e_value ev e v.
  Proof.
    pose proof root_row as Hr. pose proof Hd as (_ & Hwf & _).
    unfold evaluate. cbn zeta. destruct (make_index_ok _ _ Hwf) as (hi & lo & -> & Hix). cbn [mbind option_bind].
    destruct Hinit as (e1 & -> & He1). cbn [mbind option_bind].
    destruct (eval_terminals_ok ev _ t Hwf n Hr I Q Hterm e1 He1) as (e2 & w2 & -> & He2 & Hw2). cbn [mbind option_bind].
    destruct (ofold_inv (fun acc i => acc1 ← eval_level ev t i acc; L ← lo !! i; clear_rows ev L acc1)
      (fun pre acc => length pre <= n /\ I (fst acc) /\ winv ev t Q (S (length pre)) (snd acc)) (seq 1 n) (e2, w2))
      as ([e3 w3] & E & _ & He3 & Hw3).
    - split_and!; [simpl; lia|done|done].
    - intros pre i post [e w] Heq (Hle & He & Hw). cbn [fst snd] in *.
      assert (length pre < n) as Hlt.
      { apply (f_equal length) in Heq. rewrite seq_length, app_length in Heq. simpl in Heq. lia. }
      assert (i = S (length pre)) as ->.
      { assert (seq 1 n !! length pre = Some i) as Hx by (rewrite Heq, lookup_app_r, Nat.sub_diag by lia; done).
        apply lookup_seq in Hx. lia. }
      destruct (eval_level_ok ev _ t Hwf n Hr I Q Hnode (S (length pre)) e w Hw He ltac:(lia)) as (e' & w' & -> & He' & Hw').
      cbn [mbind option_bind].
      destruct (lookup_lt_is_Some_2 lo (S (length pre))) as [L HL]; [rewrite (ix_len _ _ _ Hix); lia|].
      rewrite HL. cbn [mbind option_bind].
      destruct (clear_rows_ok ev t n Hr I Q Hdes hi lo Hix (S (length pre)) L e' w' HL ltac:(lia) Hw' He') as (e'' & w'' & -> & He'' & Hw'').
      eexists. split; [done|]. rewrite app_length, Nat.add_1_r. split_and!; [lia|done|done].
    - rewrite E. cbn [mbind option_bind]. rewrite seq_length in Hw3. cbn [snd fst] in *.
      destruct (winv_root w3 Hw3) as (v & -> & HQ). cbn [mbind option_bind]. by exists e3, v.
  Qed.

  Lemma evaluate_mp_ok nt asg ord : 0 < nt -> (forall i j, asg i j < nt) ->
    (forall i y, t !! i = Some y -> ord i ≡ₚ seq 0 (length y)) ->
    exists e v, I e /\ Q n (col (rt d)) v /\ evaluate_mp ev nt asg ord e0 d = e_value ev e v.
  Proof.
    intros Hnt Ha Hord. pose proof root_row as Hr. pose proof Hd as (_ & Hwf & _).
    unfold evaluate_mp. cbn zeta. destruct (make_index_ok _ _ Hwf) as (hi & lo & -> & Hix). cbn [mbind option_bind].
    destruct Hinit as (e1 & He0 & He1). rewrite He0. cbn [mbind option_bind].
    assert (mapM (fun e => e_init ev e n) (replicate nt e0) = Some (replicate nt e1)) as ->.
    { clear Hnt Ha. induction nt as [|k IH]; [done|]. cbn [replicate mapM]. rewrite He0. cbn [mbind option_bind]. by rewrite IH. }
    cbn [mbind option_bind].
    destruct (eval_terminals_ok ev _ t Hwf n Hr I Q Hterm e1 He1) as (e2 & w2 & -> & He2 & Hw2). cbn [mbind option_bind].
    destruct (ofold_inv (fun '(e, es, w) i =>
                     '(es1, w1) ← eval_level_mp ev t i (asg i) (ord i) (es, w);
                     L ← lo !! i;
                     '(e2, w2) ← clear_rows ev L (e, w1);
                     es2 ← destruct_all ev L es1;
                     Some (e2, es2, w2))
      (fun pre acc => length pre <= n /\ I (fst (fst acc)) /\ Forall I (snd (fst acc)) /\ length (snd (fst acc)) = nt /\
         winv ev t Q (S (length pre)) (snd acc)) (seq 1 n) (e2, replicate nt e1, w2))
      as ([[e3 es3] w3] & E & _ & He3 & _ & _ & Hw3).
    - cbn [fst snd]. split_and!; [simpl; lia|done|by apply Forall_replicate|by rewrite replicate_length|done].
    - intros pre i post [[e es] w] Heq (Hle & He & Hes & Hlen & Hw). cbn [fst snd] in *.
      assert (length pre < n) as Hlt.
      { apply (f_equal length) in Heq. rewrite seq_length, app_length in Heq. simpl in Heq. lia. }
      assert (i = S (length pre)) as ->.
      { assert (seq 1 n !! length pre = Some i) as Hx by (rewrite Heq, lookup_app_r, Nat.sub_diag by lia; done).
        apply lookup_seq in Hx. lia. }
      destruct (eval_level_mp_ok ev _ t Hwf n Hr I Q Hnode (S (length pre)) (asg (S (length pre))) (ord (S (length pre))) es w Hw Hes ltac:(lia))
        as (es' & w' & -> & Hes' & Hlen' & Hw').
      { intros j. rewrite Hlen. apply Ha. } { intros y Hy. by apply Hord. }
      cbn [mbind option_bind].
      destruct (lookup_lt_is_Some_2 lo (S (length pre))) as [L HL]; [rewrite (ix_len _ _ _ Hix); lia|].
      rewrite HL. cbn [mbind option_bind].
      destruct (clear_rows_ok ev t n Hr I Q Hdes hi lo Hix (S (length pre)) L e w' HL ltac:(lia) Hw' He) as (e'' & w'' & -> & He'' & Hw'').
      cbn [mbind option_bind].
      destruct (destruct_all_ok ev t n Hr I Hdes L es' Hes') as (es'' & -> & Hes'' & Hlen''). cbn [mbind option_bind].
      eexists. split; [done|]. cbn [fst snd]. rewrite app_length, Nat.add_1_r. split_and!; [lia|done|done|lia|done].
    - rewrite E. cbn [mbind option_bind]. rewrite seq_length in Hw3. cbn [snd fst] in *.
      destruct (winv_root w3 Hw3) as (v & -> & HQ). cbn [mbind option_bind]. by exists e3, v.
  Qed.
End whole.
