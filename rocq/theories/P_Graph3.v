(** Graph::update: vertex colors. *)
From stdpp Require Import strings gmap sorting.
From Coq Require Import String OrderedTypeEx.
From Verif Require Import Base M_Graph S_Graph P_Graph2.
Local Open Scope nat_scope.

(** ** std::set and std::map as sorted lists *)
Lemma vset_in v l x : x ∈ vset_insert v l <-> x = v \/ x ∈ l.
Proof.
  induction l as [|w l IH]; simpl; [set_solver|].
  destruct (v <? w); [set_solver|]. destruct (Nat.eqb_spec v w) as [->|NE]; [set_solver|]. rewrite !elem_of_cons, IH. tauto.
Qed.
Lemma vset_sorted v l : StronglySorted lt l -> StronglySorted lt (vset_insert v l).
Proof.
  induction 1 as [|w l Hs IH Hf]; simpl; [repeat constructor|].
  destruct (Nat.ltb_spec v w) as [Hlt|Hge].
  - constructor; [by constructor|]. constructor; [done|]. eapply Forall_impl; [done|]. intros; simpl in *; lia.
  - destruct (Nat.eqb_spec v w) as [->|NE]; [by constructor|]. constructor; [done|]. apply Forall_forall. intros x Hx.
    apply vset_in in Hx as [->|Hx]; [lia|]. rewrite Forall_forall in Hf. by apply Hf.
Qed.
Lemma sorted_NoDup (l : list nat) : StronglySorted lt l -> NoDup l.
Proof. induction 1 as [|w l Hs IH Hf]; constructor; [|done]. intros H. rewrite Forall_forall in Hf. specialize (Hf _ H). lia. Qed.

Definition slt (c d : string) : Prop := String.compare c d = Lt.
Lemma slt_trans c d e : slt c d -> slt d e -> slt c e.
Proof.
  unfold slt. change String.compare with String_as_OT.cmp. rewrite !String_as_OT.cmp_lt. apply String_as_OT.lt_trans.
Qed.
Lemma slt_irrefl c : ~ slt c c.
Proof. unfold slt. change String.compare with String_as_OT.cmp. rewrite (proj2 (String_as_OT.cmp_eq c c)); done. Qed.
Lemma sgt_slt c d : String.compare c d = Gt -> slt d c.
Proof. intros H. unfold slt. rewrite String.compare_antisym, H. done. Qed.

Definition cmember (sets : list (string * list nat)) (c : string) (v : nat) : Prop := exists vs, (c, vs) ∈ sets /\ v ∈ vs.
Definition sets_ok (sets : list (string * list nat)) : Prop :=
  StronglySorted slt (map fst sets) /\ forall c vs, (c, vs) ∈ sets -> vs <> [] /\ StronglySorted lt vs.

Lemma color_insert_keys c v l x : x ∈ map fst (color_insert c v l) <-> x = c \/ x ∈ map fst l.
Proof.
  induction l as [|[c' vs] l IH]; simpl; [set_solver|]. destruct (String.compare c c') eqn:E; simpl.
  - apply String_as_OT.cmp_eq in E as ->. set_solver.
  - set_solver.
  - rewrite !elem_of_cons, IH. tauto.
Qed.
Lemma color_insert_ok c v l : sets_ok l -> sets_ok (color_insert c v l) /\
  forall d w, cmember (color_insert c v l) d w <-> (d = c /\ w = v) \/ cmember l d w.
Proof.
  induction l as [|[c' vs] l IH]; intros [Hs Hv]; simpl.
  - split.
    + split; [repeat constructor|]. intros d ws Hd. apply elem_of_list_singleton in Hd. injection Hd as -> ->. split; [done|repeat constructor].
    + intros d w. unfold cmember. split.
      * intros (ws & H1 & H2). apply elem_of_list_singleton in H1. injection H1 as -> ->. apply elem_of_list_singleton in H2. by left.
      * intros [[-> ->]|(ws & H1 & _)]; [|by apply elem_of_nil in H1]. exists [v]. split; set_solver.
  - simpl in Hs. apply StronglySorted_inv in Hs as [Hs Hf]. destruct (Hv c' vs) as [Hne Hvs]; [left|].
    destruct (String.compare c c') eqn:E.
    + apply String_as_OT.cmp_eq in E as ->. split.
      * split; [by constructor|]. intros d ws Hd. apply elem_of_cons in Hd as [Hd|Hd].
        -- injection Hd as -> ->. split; [|by apply vset_sorted]. intros H. assert (v ∈ vset_insert v vs) as H' by (apply vset_in; by left).
           rewrite H in H'. by apply elem_of_nil in H'.
        -- apply (Hv d). by right.
      * intros d w. unfold cmember. setoid_rewrite elem_of_cons. split.
        -- intros (ws & [H|H] & Hw); [injection H as -> ->; apply vset_in in Hw as [->|Hw]; [by left|right; exists vs; tauto]|].
           right. exists ws. tauto.
        -- intros [[-> ->]|(ws & [H|H] & Hw)].
           ++ exists (vset_insert v vs). split; [by left|]. apply vset_in. by left.
           ++ injection H as -> ->. exists (vset_insert v vs). split; [by left|]. apply vset_in. by right.
           ++ exists ws. tauto.
    + split.
      * split.
        -- simpl. constructor; [by constructor|]. constructor; [done|]. eapply Forall_impl; [done|]. intros x Hx. simpl in Hx. by eapply slt_trans.
        -- intros d ws Hd. apply elem_of_cons in Hd as [Hd|Hd]; [|by apply (Hv d)]. injection Hd as -> ->. split; [done|repeat constructor].
      * intros d w. unfold cmember. split.
        -- intros (ws & H & Hw). apply elem_of_cons in H as [H|H]; [injection H as -> ->; apply elem_of_list_singleton in Hw; by left|].
           right. by exists ws.
        -- intros [[-> ->]|(ws & H & Hw)]; [exists [v]; split; [left|apply elem_of_list_singleton; done]|]. exists ws. split; [by right|done].
    + destruct IH as [[IH1 IH2] IH3]; [split; [done|intros d ws Hd; apply (Hv d); by right]|]. split.
      * split.
        -- simpl. constructor; [done|]. apply Forall_forall. intros x Hx. apply color_insert_keys in Hx as [->|Hx]; [by apply sgt_slt|].
           rewrite Forall_forall in Hf. by apply Hf.
        -- intros d ws Hd. apply elem_of_cons in Hd as [Hd|Hd]; [injection Hd as -> ->; done|]. by apply IH2 in Hd.
      * intros d w. specialize (IH3 d w). unfold cmember in *. setoid_rewrite elem_of_cons. split.
        -- intros (ws & [H|H] & Hw); [right; exists ws; tauto|].
           destruct (proj1 IH3) as [H'|(ws' & H1 & H2)]; [by exists ws|by left|]. right. exists ws'. tauto.
        -- intros [H|(ws & [H|H] & Hw)].
           ++ destruct (proj2 IH3) as (ws & H1 & H2); [by left|]. exists ws. tauto.
           ++ exists ws. tauto.
           ++ destruct (proj2 IH3) as (ws' & H1 & H2); [right; by exists ws|]. exists ws'. tauto.
Qed.

Lemma slt_sorted_NoDup (l : list string) : StronglySorted slt l -> NoDup l.
Proof. induction 1 as [|w l Hs IH Hf]; constructor; [|done]. intros H. rewrite Forall_forall in Hf. by apply (slt_irrefl w), Hf. Qed.

Lemma color_sets_ok n2v (n2c : list (string * string)) :
  (forall s c, (s, c) ∈ n2c -> exists v, n2v !! s = Some v /\ v <> 0) -> (N.of_nat (length n2c) <= 65535)%N ->
  exists sets, color_sets n2v n2c = Some sets /\ sets_ok sets /\
  forall c v, cmember sets c v <-> exists s, (s, c) ∈ n2c /\ n2v !! s = Some v.
Proof.
  intros Hn Hlen. unfold color_sets.
  match goal with |- context [ofold ?f n2c ?s0] => destruct (ofold_inv f
    (fun pre l => sets_ok l /\ (forall c, c ∈ map fst l -> c ∈ map snd pre) /\
      forall c v, cmember l c v <-> exists s, (s, c) ∈ pre /\ n2v !! s = Some v) n2c s0) as (sets & Hrun & Hok & Hsub & Hmem) end.
  - split_and!; [split; [constructor|]; intros c vs H; by apply elem_of_nil in H|done|]. intros c v. split.
    + intros (vs & H & _). by apply elem_of_nil in H.
    + intros (s & H & _). by apply elem_of_nil in H.
  - intros pre [s c] post l Hl (Hok & Hsub & Hmem). cbn [fst snd]. destruct (Hn s c) as (v & Hv & Hv0); [rewrite Hl; set_solver|].
    rewrite Hv. unfold default, id. destruct (Nat.eqb_spec v 0); [done|]. eexists. split; [reflexivity|].
    destruct (color_insert_ok c v l Hok) as [H1 H2]. split_and!; [done| |].
    + intros d Hd. apply color_insert_keys in Hd as [->|Hd]; rewrite map_app; cbn [map snd].
      * set_solver.
      * apply elem_of_app. left. by apply Hsub.
    + intros d w. rewrite H2, Hmem. setoid_rewrite elem_of_app. split.
      * intros [[-> ->]|(t & Ht & Ht')]; [exists s; split; [right; apply elem_of_list_singleton; done|done]|exists t; tauto].
      * intros (t & [Ht|Ht] & Ht'); [right; by exists t|]. apply elem_of_list_singleton in Ht. injection Ht as -> ->. left. split; congruence.
  - rewrite Hrun. cbn [mbind option_bind]. destruct (N.ltb_spec 65535 (N.of_nat (length sets))) as [Hlt|Hge].
    + exfalso. assert (length (map fst sets) <= length (map snd n2c)).
      { apply submseteq_length, NoDup_submseteq; [apply slt_sorted_NoDup, Hok|done]. }
      rewrite !map_length in H. lia.
    + by exists sets.
Qed.

(** ** colorNumber_, virtualMate_ *)
Definition sets_disjoint (m : nat) (sets : list (string * list nat)) : Prop :=
  (forall c v, cmember sets c v -> 1 <= v <= m) /\
  (forall i j c d vs ws v, sets !! i = Some (c, vs) -> sets !! j = Some (d, ws) -> v ∈ vs -> v ∈ ws -> i = j).

Definition col_spec (pre : list (string * list nat)) (v x : nat) : Prop :=
  (x = 0 /\ forall c, ~ cmember pre c v) \/ (exists i c vs, x = S i /\ pre !! i = Some (c, vs) /\ v ∈ vs).
Definition mate_spec (pre : list (string * list nat)) (v w : nat) : Prop :=
  (w = 0 /\ forall c x y, (c, [x; y]) ∈ pre -> x <> v /\ y <> v) \/
  (exists c, (c, [v; w]) ∈ pre \/ (c, [w; v]) ∈ pre).

Lemma color_numbers_ok m sets : sets_ok sets -> sets_disjoint m sets ->
  exists mate col pairs, color_numbers m sets = Some (mate, col, length sets, pairs) /\
  length mate = S m /\ length col = S m /\
  (forall v x, col !! v = Some x -> col_spec sets v x) /\
  (forall v x, mate !! v = Some x -> mate_spec sets v x) /\
  (pairs = true <-> sets <> [] /\ forall c vs, (c, vs) ∈ sets -> length vs = 2).
Proof.
  intros Hok [Hrange Hdisj]. unfold color_numbers.
  assert (Hin : forall pre cv post, sets = pre ++ cv :: post -> cv ∈ sets /\ sets !! length pre = Some cv).
  { intros pre cv post ->. split; [set_solver|]. by rewrite lookup_app_r, Nat.sub_diag by lia. }
  match goal with |- context [ofold ?f sets ?s0] => destruct (ofold_inv f
    (fun pre st => exists mate col pairs, st = (mate, col, length pre, pairs) /\ length mate = S m /\ length col = S m /\
      (forall v x, col !! v = Some x -> col_spec pre v x) /\ (forall v x, mate !! v = Some x -> mate_spec pre v x) /\
      (pairs = true <-> sets <> [] /\ forall c vs, (c, vs) ∈ pre -> length vs = 2)) sets s0) as (st & Hrun & mate & col & pairs & -> & H1 & H2 & H3 & H4 & H5) end.
  - do 3 eexists. split; [reflexivity|]. rewrite replicate_length. split_and!; [done|done| | |].
    + intros v x Hx. apply lookup_replicate in Hx as [-> _]. left. split; [done|]. intros c (vs & H & _). by apply elem_of_nil in H.
    + intros v x Hx. apply lookup_replicate in Hx as [-> _]. left. split; [done|]. intros c y z H. by apply elem_of_nil in H.
    + destruct sets; cbn [negb]; split; try done.
      * by intros [? _].
      * intros _. split; [done|]. intros c vs H. by apply elem_of_nil in H.
  - intros pre [c vs] post st Hl (mate & col & pairs & -> & H1 & H2 & H3 & H4 & H5). cbn [snd].
    destruct (Hin _ _ _ Hl) as [Hcv Hpos].
    assert (Hr : forall v, v ∈ vs -> 1 <= v <= m). { intros v Hv. apply (Hrange c). by exists vs. }
    assert (Hpre : forall i d ws v, pre !! i = Some (d, ws) -> v ∈ vs -> v ∈ ws -> False).
    { intros i d ws v Hi Hv Hw. assert (sets !! i = Some (d, ws)) as Hi' by (rewrite Hl; by apply lookup_app_l_Some).
      assert (i = length pre) by (by eapply Hdisj). apply lookup_lt_Some in Hi. lia. }
    assert (Hsnoc : forall p, p ∈ pre ++ [(c, vs)] <-> p ∈ pre \/ p = (c, vs)).
    { intros p. by rewrite elem_of_app, elem_of_list_singleton. }
    (* mates *)
    assert (exists mate' pairs', (match vs with
        | [w1; w2] => if (w1 <=? m) && (w2 <=? m) then Some (<[w2 := w1]> (<[w1 := w2]> mate), pairs) else None
        | _ => Some (mate, false) end) = Some (mate', pairs') /\ length mate' = S m /\
        (forall v x, mate' !! v = Some x -> mate_spec (pre ++ [(c, vs)]) v x) /\
        (pairs' = true <-> sets <> [] /\ forall c' ws, (c', ws) ∈ pre ++ [(c, vs)] -> length ws = 2)) as (mate' & pairs' & Hm & Hm1 & Hm2 & Hm3).
    { destruct (decide (length vs = 2)) as [E2|N2].
      - destruct vs as [|w1 [|w2 [|]]]; try done.
        destruct (Hr w1) as [? ?]; [left|]. destruct (Hr w2) as [? ?]; [right; left|].
        rewrite (proj2 (Nat.leb_le _ _)) by lia. rewrite (proj2 (Nat.leb_le _ _)) by lia. cbn [andb].
        do 2 eexists. split; [reflexivity|]. rewrite !insert_length. split_and!; [done| |].
        + assert (w1 <> w2) as Hne. { destruct Hok as [_ Hv]. destruct (Hv _ _ Hcv) as [_ Hs].
            apply sorted_NoDup in Hs. apply NoDup_cons in Hs as [Hs _]. intros ->. apply Hs. left. }
          intros v x Hx. destruct (decide (w2 = v)) as [<-|Nw2].
          { rewrite list_lookup_insert in Hx by (rewrite insert_length; lia). injection Hx as <-. right. exists c. right. apply Hsnoc. by right. }
          rewrite list_lookup_insert_ne in Hx by done. destruct (decide (w1 = v)) as [<-|Nw1].
          { rewrite list_lookup_insert in Hx by lia. injection Hx as <-. right. exists c. left. apply Hsnoc. by right. }
          rewrite list_lookup_insert_ne in Hx by done. destruct (H4 v x Hx) as [[-> Hno]|(d & Hd)].
          * left. split; [done|]. intros d y z Hd. apply Hsnoc in Hd as [Hd|Hd]; [by apply (Hno d)|]. injection Hd as -> -> ->. done.
          * right. exists d. rewrite !Hsnoc. tauto.
        + rewrite H5. split; intros [Ha Hb]; (split; [done|]); intros d ws Hd.
          * apply Hsnoc in Hd as [Hd|Hd]; [by apply (Hb d)|]. by injection Hd as -> ->.
          * apply (Hb d). apply Hsnoc. by left.
      - exists mate, false. split_and!; [destruct vs as [|? [|? [|]]]; done|done| |].
        + intros v x Hx. destruct (H4 v x Hx) as [[-> Hno]|(d & Hd)].
          * left. split; [done|]. intros d y z Hd. apply Hsnoc in Hd as [Hd|Hd]; [by apply (Hno d)|]. injection Hd as -> <-. done.
          * right. exists d. rewrite !Hsnoc. tauto.
        + split; [done|]. intros [_ Hb]. exfalso. apply N2, (Hb c). apply Hsnoc. by right. }
    rewrite Hm. cbn [mbind option_bind].
    (* colors *)
    destruct (ofold_inv (fun col v => if v <=? m then Some (<[v := S (length pre)]> col) else None)
      (fun done col' => length col' = S m /\ forall v x, col' !! v = Some x -> (v ∈ done /\ x = S (length pre)) \/ (v ∉ done /\ col !! v = Some x))
      vs col) as (col' & Hc & Hc1 & Hc2).
    { split; [done|]. intros v x Hx. right. split; [apply not_elem_of_nil|done]. }
    { intros dn v rest col' Hvs [Hc1 Hc2]. assert (v <= m) by (apply Hr; rewrite Hvs; set_solver).
      rewrite (proj2 (Nat.leb_le _ _)) by done. eexists. split; [reflexivity|]. rewrite insert_length. split; [done|].
      intros w x Hx. destruct (decide (v = w)) as [<-|NE].
      - rewrite list_lookup_insert in Hx by lia. injection Hx as <-. left. split; [set_solver|done].
      - rewrite list_lookup_insert_ne in Hx by done. destruct (Hc2 w x Hx) as [[? ?]|[? ?]]; [left|right]; (split; [set_solver|done]). }
    rewrite Hc. cbn [mbind option_bind]. eexists. split; [reflexivity|]. do 3 eexists. split; [by rewrite app_length, Nat.add_1_r|].
    split_and!; [done|done| |done|done].
    intros v x Hx. destruct (Hc2 v x Hx) as [[Hv ->]|[Hv Hx']].
    + right. exists (length pre), c, vs. split_and!; [done| |done]. by rewrite lookup_app_r, Nat.sub_diag by lia.
    + destruct (H3 v x Hx') as [[-> Hno]|(i & d & ws & -> & Hi & Hw)].
      * left. split; [done|]. intros d (ws & Hd & Hw). apply Hsnoc in Hd as [Hd|Hd]; [apply (Hno d); by exists ws|]. by injection Hd as -> ->.
      * right. exists i, d, ws. split_and!; [done| |done]. by apply lookup_app_l_Some.
  - by exists mate, col, pairs.
Qed.

(** ** renumbering colors in vertex order *)
Lemma sort_colors_ok m num col : length col = S m -> (forall v x, col !! v = Some x -> x <= num) -> 
  (forall n, 1 <= n <= num -> exists v, 1 <= v <= m /\ col !! v = Some n) ->
  exists col' f, sort_colors m num col = Some col' /\ length col' = S m /\
  (forall v x, 1 <= v -> col !! v = Some x -> col' !! v = Some (f x)) /\ f 0 = 0 /\
  (forall x, 1 <= x <= num -> 1 <= f x <= num) /\
  (forall x y, 1 <= x <= num -> 1 <= y <= num -> f x = f y -> x = y) /\
  (forall n, 1 <= n <= num -> exists x, 1 <= x <= num /\ f x = n) /\ col' !! 0 = col !! 0.
Proof.
  intros Hlen Hle Hsurj. unfold sort_colors.
  match goal with |- context [ofold ?g (seq 1 m) ?s0] => destruct (ofold_inv g
    (fun pre st => exists col' cmap cs, st = (col', cmap, length cs) /\ length col' = S m /\ length cmap = S num /\ NoDup cs /\
      (forall c, c ∈ cs -> 1 <= c <= num) /\
      (forall c x, cmap !! c = Some x -> (x = 0 /\ c ∉ cs) \/ (exists j, x = S j /\ cs !! j = Some c)) /\
      (forall v x, v ∈ pre -> col !! v = Some x -> (x = 0 /\ col' !! v = Some 0) \/ (exists j, cs !! j = Some x /\ col' !! v = Some (S j))) /\
      (forall v, v ∉ pre -> col' !! v = col !! v)) (seq 1 m) s0) as (st & Hrun & col' & cmap & cs & -> & H1 & H2 & H3 & H4 & H5 & H6 & H7) end.
  - exists col, (replicate (S num) 0), []. rewrite replicate_length. split_and!; [done|done|done|constructor| | | |done].
    + intros c Hc. by apply elem_of_nil in Hc.
    + intros c x Hx. apply lookup_replicate in Hx as [-> _]. left. split; [done|apply not_elem_of_nil].
    + intros v x Hv. by apply elem_of_nil in Hv.
  - intros pre v post st Hl (col' & cmap & cs & -> & H1 & H2 & H3 & H4 & H5 & H6 & H7).
    assert (Hv : 1 <= v <= m). { assert (v ∈ seq 1 m) as Hv by (rewrite Hl; set_solver). apply elem_of_seq in Hv. lia. }
    assert (v ∉ pre) as Hvp. { pose proof (NoDup_seq 1 m) as Hnd. rewrite Hl in Hnd. apply NoDup_app in Hnd as (_ & Hd & _). intros H. apply (Hd v H). left. }
    destruct (lookup_lt_is_Some_2 col v) as [c Hc]; [lia|]. rewrite H7, Hc by done. cbn [mbind option_bind].
    assert (Hold : forall col'' : list nat, (forall w, w <> v -> col'' !! w = col' !! w) -> forall w, w ∉ pre ++ [v] -> col'' !! w = col !! w).
    { intros col'' Hc'' w Hw. rewrite Hc'' by set_solver. apply H7. set_solver. }
    destruct (Nat.eqb_spec c 0) as [->|Hc0].
    + eexists. split; [reflexivity|]. exists col', cmap, cs. split_and!; try done.
      * intros w x Hw Hx. apply elem_of_app in Hw as [Hw|Hw]; [by apply H6|]. apply elem_of_list_singleton in Hw as ->.
        left. rewrite Hc in Hx. injection Hx as <-. split; [done|]. by rewrite H7.
      * by apply Hold.
    + pose proof (Hle _ _ Hc). destruct (lookup_lt_is_Some_2 cmap c) as [cc Hcc]; [lia|]. rewrite Hcc. cbn [mbind option_bind].
      destruct (H5 _ _ Hcc) as [[-> Hnew]|(j & -> & Hj)].
      * cbn [Nat.eqb]. eexists. split; [reflexivity|]. exists (<[v := S (length cs)]> col'), (<[c := S (length cs)]> cmap), (cs ++ [c]).
        rewrite !insert_length, app_length. cbn [length]. split_and!; [by rewrite Nat.add_1_r|done|done| | | | |].
        -- apply NoDup_app. split_and!; [done| |apply NoDup_singleton]. intros x Hx Hx'. apply elem_of_list_singleton in Hx' as ->. done.
        -- intros x Hx. apply elem_of_app in Hx as [Hx|Hx]; [by apply H4|]. apply elem_of_list_singleton in Hx as ->. lia.
        -- intros d x Hx. destruct (decide (c = d)) as [<-|NE].
           ++ rewrite list_lookup_insert in Hx by lia. injection Hx as <-. right. exists (length cs). split; [done|]. by rewrite lookup_app_r, Nat.sub_diag by lia.
           ++ rewrite list_lookup_insert_ne in Hx by done. destruct (H5 d x Hx) as [[-> Hd]|(j & -> & Hj)]; [left; set_solver|].
              right. exists j. split; [done|]. by apply lookup_app_l_Some.
        -- intros w x Hw Hx. apply elem_of_app in Hw as [Hw|Hw].
           ++ rewrite list_lookup_insert_ne by (intros <-; done). destruct (H6 w x Hw Hx) as [?|(j & Hj & Hj')]; [by left|].
              right. exists j. split; [by apply lookup_app_l_Some|done].
           ++ apply elem_of_list_singleton in Hw as ->. assert (x = c) as -> by congruence. right. exists (length cs).
              rewrite list_lookup_insert by lia. by rewrite lookup_app_r, Nat.sub_diag by lia.
        -- apply Hold. intros w Hw. by rewrite list_lookup_insert_ne.
      * cbn [Nat.eqb]. eexists. split; [reflexivity|]. exists (<[v := S j]> col'), cmap, cs. rewrite !insert_length. split_and!; try done.
        -- intros w x Hw Hx. apply elem_of_app in Hw as [Hw|Hw].
           ++ rewrite list_lookup_insert_ne by (intros <-; done). by apply H6.
           ++ apply elem_of_list_singleton in Hw as ->. assert (x = c) as -> by congruence. right. exists j. by rewrite list_lookup_insert by lia.
        -- apply Hold. intros w Hw. by rewrite list_lookup_insert_ne.
  - rewrite Hrun. cbn [mbind option_bind].
    assert (Hall : forall n, 1 <= n <= num -> n ∈ cs).
    { intros n Hn. destruct (Hsurj n Hn) as (v & Hv & Hcv). destruct (H6 v n) as [[-> _]|(j & Hj & _)]; [apply elem_of_seq; lia|done|lia|].
      by eapply elem_of_list_lookup_2. }
    assert (Hlcs : length cs = num).
    { assert (length cs <= length (seq 1 num)) as Ha. { apply submseteq_length, NoDup_submseteq; [done|]. intros x Hx. apply elem_of_seq. specialize (H4 x Hx). lia. }
      assert (length (seq 1 num) <= length cs) as Hb. { apply submseteq_length, NoDup_submseteq; [apply NoDup_seq|]. intros x Hx. apply elem_of_seq in Hx. apply Hall. lia. }
      rewrite seq_length in *. lia. }
    exists col', (fun c => match list_find (fun x => x = c) cs with Some (j, _) => S j | None => 0 end).
    assert (Hf : forall j c, cs !! j = Some c -> list_find (fun x => x = c) cs = Some (j, c)).
    { intros j c Hj. apply list_find_Some. split_and!; [done|done|]. intros i y Hi Hlt ->. pose proof (NoDup_lookup _ _ _ _ H3 Hj Hi). lia. }
    split_and!; [done|done| | | | | |].
    + intros v x Hv Hx. destruct (H6 v x) as [[-> H]|(j & Hj & H)]; [apply elem_of_seq; apply lookup_lt_Some in Hx; lia|done| |].
      * rewrite H. destruct (list_find _ cs) as [[j y]|] eqn:E; [|done]. apply list_find_Some in E as (E1 & E2 & _). subst y.
        apply elem_of_list_lookup_2 in E1. specialize (H4 _ E1). lia.
      * by rewrite H, (Hf _ _ Hj).
    + destruct (list_find _ cs) as [[j y]|] eqn:E; [|done]. apply list_find_Some in E as (E1 & E2 & _). subst y.
      apply elem_of_list_lookup_2 in E1. specialize (H4 _ E1). lia.
    + intros x Hx. destruct (proj1 (elem_of_list_lookup _ _) (Hall x Hx)) as [j Hj]. rewrite (Hf _ _ Hj). apply lookup_lt_Some in Hj. lia.
    + intros x y Hx Hy. destruct (proj1 (elem_of_list_lookup _ _) (Hall x Hx)) as [j Hj], (proj1 (elem_of_list_lookup _ _) (Hall y Hy)) as [k Hk].
      rewrite (Hf _ _ Hj), (Hf _ _ Hk). intros E. injection E as ->. congruence.
    + intros n Hn. destruct (lookup_lt_is_Some_2 cs (n - 1)) as [x Hx]; [lia|]. exists x. split; [apply H4; by eapply elem_of_list_lookup_2|].
      rewrite (Hf _ _ Hx). lia.
    + apply H7. intros H. apply elem_of_seq in H. lia.
Qed.
