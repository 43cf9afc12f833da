(** Graph::update: unique edges, vertex order, edge numbers. *)
From stdpp Require Import strings gmap.
From Coq Require Import String.
From Verif Require Import Base M_Graph S_Graph.
Local Open Scope nat_scope.

(** ** unique edges *)
Lemma same_edge_sym e f : same_edge e f -> same_edge f e.
Proof. destruct e, f. unfold same_edge. cbn [fst snd]. intros [H|H]; injection H as -> ->; [by left|by right]. Qed.
Lemma same_edge_refl e : same_edge e e.
Proof. by left. Qed.
Lemma same_edge_trans e f g : same_edge e f -> same_edge f g -> same_edge e g.
Proof. destruct e, f, g. unfold same_edge. cbn [fst snd]. intros [H|H] [H'|H']; injection H as -> ->; injection H' as -> ->; tauto. Qed.

Lemma uniq_ok names : exists l m, uniq_edges names = (l, m) /\ first_occurrences names l /\
  (forall e, m !! e = Some None \/ m !! e = None) /\
  (forall e, is_Some (m !! e) <-> exists f, f ∈ names /\ same_edge e f).
Proof.
  induction names as [|e names IH] using rev_ind.
  - exists [], ∅. split_and!; [done|constructor| |].
    + intros e. right. apply lookup_empty.
    + intros e. rewrite lookup_empty. split; [intros [? ?]; done|]. intros (f & H & _). by apply elem_of_nil in H.
  - destruct IH as (l & m & E & Hf & Hv & Hm). unfold uniq_edges in *. rewrite foldl_app, E. cbn [foldl]. unfold uniq_step. cbn [fst snd].
    destruct (m !! e) as [o|] eqn:Ee.
    + exists l, m. split_and!; [done| |done|].
      * destruct (proj1 (Hm e)) as (f & H1 & H2); [by rewrite Ee|]. by eapply fo_old.
      * intros e'. rewrite Hm. split; [intros (f & H1 & H2); exists f; split; [set_solver|done]|].
        intros (f & H1 & H2). apply elem_of_app in H1 as [H1|H1]; [by exists f|].
        apply elem_of_list_singleton in H1 as ->. destruct (proj1 (Hm e)) as (f & H3 & H4); [by rewrite Ee|].
        exists f. split; [done|]. by eapply same_edge_trans.
    + do 2 eexists. split; [reflexivity|]. split_and!.
      * constructor; [done|]. intros f H1 H2. assert (is_Some (m !! e)) as [? ?] by (apply Hm; by exists f). congruence.
      * intros e'. destruct (decide ((snd e, fst e) = e')) as [<-|N1]; [left; apply lookup_insert|].
        rewrite lookup_insert_ne by done. destruct (decide (e = e')) as [<-|N2]; [left; apply lookup_insert|].
        rewrite lookup_insert_ne by done. apply Hv.
      * intros e'. destruct (decide ((snd e, fst e) = e')) as [<-|N1].
        { rewrite lookup_insert. split; [intros _|by eexists]. exists e. split; [set_solver|]. right. by destruct e. }
        rewrite lookup_insert_ne by done. destruct (decide (e = e')) as [<-|N2].
        { rewrite lookup_insert. split; [intros _|by eexists]. exists e. split; [set_solver|apply same_edge_refl]. }
        rewrite lookup_insert_ne by done. rewrite Hm. split; intros (f & H1 & H2); exists f.
        -- split; [set_solver|done].
        -- split; [|done]. apply elem_of_app in H1 as [H1|H1]; [done|]. apply elem_of_list_singleton in H1 as ->.
           apply same_edge_sym in H2. destruct H2 as [->|H2]; [done|]. by subst.
Qed.
Lemma fo_in names l : first_occurrences names l ->
  (forall e, e ∈ l -> e ∈ names) /\ (forall e, e ∈ names -> exists f, f ∈ l /\ same_edge e f).
Proof.
  induction 1 as [|names l e H [IH1 IH2] Hn|names l e f H [IH1 IH2] Hf Hs].
  - split; [done|]. intros e He. by apply elem_of_nil in He.
  - split.
    + intros e'. rewrite !elem_of_app. intros [H'|H']; [left; by apply IH1|by right].
    + intros e'. rewrite elem_of_app. intros [H'|H'].
      * destruct (IH2 e' H') as (f & H1 & H2). exists f. split; [set_solver|done].
      * apply elem_of_list_singleton in H' as ->. exists e. split; [set_solver|apply same_edge_refl].
  - split.
    + intros e' H'. apply elem_of_app. left. by apply IH1.
    + intros e'. rewrite elem_of_app. intros [H'|H']; [by apply IH2|]. apply elem_of_list_singleton in H' as ->.
      destruct (IH2 f Hf) as (g & H1 & H2). exists g. split; [done|]. by eapply same_edge_trans.
Qed.
Lemma fo_distinct names l : first_occurrences names l ->
  forall i j e f, l !! i = Some e -> l !! j = Some f -> same_edge e f -> i = j.
Proof.
  induction 1 as [|names l e H IH Hn|names l e f H IH Hf Hs]; [done| |done].
  intros i j e1 f1 H1 H2 Hse. rewrite lookup_app in H1, H2.
  destruct (l !! i) as [e1'|] eqn:E1; destruct (l !! j) as [f1'|] eqn:E2.
  - injection H1 as ->. injection H2 as ->. by eapply IH.
  - injection H1 as ->. apply list_lookup_singleton_Some in H2 as [H2 <-]. exfalso.
    apply (Hn e1); [|by apply same_edge_sym]. eapply fo_in; [done|]. by eapply elem_of_list_lookup_2.
  - injection H2 as ->. apply list_lookup_singleton_Some in H1 as [H1 <-]. exfalso.
    apply (Hn f1); [|done]. eapply fo_in; [done|]. by eapply elem_of_list_lookup_2.
  - apply list_lookup_singleton_Some in H1 as [H1 <-]. apply list_lookup_singleton_Some in H2 as [H2 <-].
    apply lookup_ge_None in E1, E2. lia.
Qed.

(** ** leaving order of the vertices *)
Definition ninc (es : list edge_name) (a : nat) (s : string) : Prop :=
  exists e, es !! a = Some e /\ (fst e = s \/ snd e = s).
Definition leaving (es : list edge_name) (st : list string) : Prop :=
  forall i j x y, i <= j -> st !! i = Some x -> st !! j = Some y -> forall a, ninc es a x -> exists b, a <= b /\ ninc es b y.

Lemma push_ok s st (m : gmap string nat) :
  (forall x, is_Some (m !! x) <-> x ∈ st) -> NoDup st ->
  exists st' m', push_vertex s (st, m) = (st', m') /\ st' = (if bool_decide (s ∈ st) then st else s :: st) /\
  (forall x, is_Some (m' !! x) <-> x ∈ st') /\ NoDup st' /\ (forall x, x ∈ st' <-> x = s \/ x ∈ st).
Proof.
  intros Hm Hnd. unfold push_vertex. cbn [fst snd]. destruct (m !! s) as [o|] eqn:E.
  - assert (s ∈ st) as Hin by (apply Hm; by rewrite E). exists st, m. rewrite bool_decide_eq_true_2 by done.
    split_and!; [done|done|done|done|]. intros x. split; [tauto|]. by intros [->|H].
  - assert (s ∉ st) as Hin. { intros H. apply Hm in H as [? ?]. congruence. }
    do 2 eexists. split; [reflexivity|]. rewrite bool_decide_eq_false_2 by done. split_and!; [done| |by constructor|].
    + intros x. rewrite elem_of_cons. destruct (decide (s = x)) as [<-|NE].
      * rewrite lookup_insert. split; [by left|by eexists].
      * rewrite lookup_insert_ne by done. rewrite Hm. split; [by right|]. by intros [->|H].
    + intros x. by rewrite elem_of_cons.
Qed.

Lemma ninc_cons e es a s : ninc (e :: es) (S a) s <-> ninc es a s.
Proof. done. Qed.

Lemma stack_ok es : exists st m, vertex_stack es = (st, m) /\ (forall x, is_Some (m !! x) <-> x ∈ st) /\ NoDup st /\
  (forall s, s ∈ st <-> vertex_name_in es s) /\ leaving es st.
Proof.
  induction es as [|e es (st & m & E & Hm & Hnd & Hin & Hlv)].
  - exists [], ∅. split_and!; [done| |constructor| |].
    + intros x. rewrite lookup_empty. split; [intros [? ?]; done|]. intros H. by apply elem_of_nil in H.
    + intros s. split; [intros H; by apply elem_of_nil in H|]. intros (e & H & _). by apply elem_of_nil in H.
    + intros i j x y _ H. done.
  - unfold vertex_stack in *. cbn [foldr]. rewrite E.
    destruct (push_ok (snd e) st m Hm Hnd) as (st1 & m1 & -> & Est1 & Hm1 & Hnd1 & Hin1).
    destruct (push_ok (fst e) st1 m1 Hm1 Hnd1) as (st2 & m2 & -> & Est2 & Hm2 & Hnd2 & Hin2).
    exists st2, m2. split_and!; [done|done|done| |].
    + intros s. rewrite Hin2, Hin1, Hin. unfold vertex_name_in. split.
      * intros [->|[->|(f & H1 & H2)]]; [exists e; split; [apply elem_of_cons; by left|by (left + right)]..|]. exists f. split; [by apply elem_of_cons; right|done].
      * intros (f & H1 & H2). apply elem_of_cons in H1 as [->|H1]; [naive_solver|]. right; right. by exists f.
    + (* the order *)
      assert (Hstep : forall s st', leaving (e :: es) st' -> (fst e = s \/ snd e = s) ->
                (forall x, x ∈ st' -> exists b, ninc (e :: es) b x) -> (forall x, x ∈ st -> x ∈ st') ->
                leaving (e :: es) (if bool_decide (s ∈ st') then st' else s :: st')).
      { intros s st' Hl Hse Hall Hsub. destruct (bool_decide_reflect (s ∈ st')) as [Hs|Hs]; [done|]. intros i j x y Hij Hx Hy a Ha.
        destruct i as [|i].
        - injection Hx as <-. destruct j as [|j]; [injection Hy as <-; by exists a|]. simpl in Hy.
          assert (a = 0) as ->.
          { destruct a as [|a]; [done|]. exfalso. apply Hs, Hsub, Hin. destruct Ha as (f & H1 & H2). exists f.
            split; [by eapply elem_of_list_lookup_2|done]. }
          destruct (Hall y) as [b Hb]; [by eapply elem_of_list_lookup_2|]. exists b. split; [lia|done].
        - destruct j as [|j]; [lia|]. simpl in Hx, Hy. eapply (Hl i j); [lia|done..]. }
      assert (Hall : forall x, x ∈ st -> exists b, ninc (e :: es) b x).
      { intros x Hx. apply Hin in Hx as (f & H1 & H2). apply elem_of_list_lookup in H1 as [b Hb]. exists (S b). by exists f. }
      assert (Hl0 : leaving (e :: es) st).
      { intros i j x y Hij Hx Hy a Ha. destruct a as [|a].
        - destruct (Hall y) as [b Hb]; [by eapply elem_of_list_lookup_2|]. exists b. split; [lia|done].
        - rewrite ninc_cons in Ha. destruct (Hlv i j x y Hij Hx Hy a Ha) as (b & H1 & H2). exists (S b).
          split; [lia|by apply ninc_cons]. }
      assert (Hl1 : leaving (e :: es) st1).
      { rewrite Est1. apply Hstep; [done|by right|done|done]. }
      rewrite Est2. apply Hstep; [done|by left| |].
      * intros x Hx. apply Hin1 in Hx as [->|Hx]; [|by apply Hall]. exists 0, e. split; [done|by right].
      * intros x Hx. apply Hin1. by right.
Qed.

(** ** numbers of the vertices *)
Lemma number_ok st (m : gmap string nat) : (forall x, is_Some (m !! x) <-> x ∈ st) -> NoDup st ->
  (N.of_nat (S (length st)) <= max_vertices)%N ->
  exists n2v, number_vertices st m = Some (n2v, ""%string :: st) /\
  (forall s v, n2v !! s = Some v <-> exists i, v = S i /\ st !! i = Some s).
Proof.
  intros Hm Hnd Hmax. unfold number_vertices.
  destruct (ofold_inv (fun (st : gmap string nat * list string) (s : string) =>
      let '(n2v, v2n) := st in
      let v2n' := v2n ++ [s] in
      if (max_vertices <? N.of_nat (length v2n'))%N then None
      else Some (<[s := length v2n]> n2v, v2n'))
    (fun pre st' => snd st' = ""%string :: pre /\
       (forall s v, s ∈ pre -> fst st' !! s = Some v <-> exists i, v = S i /\ pre !! i = Some s) /\
       (forall s, s ∉ st -> fst st' !! s = None)) st (m, [""%string])) as ([n2v v2n] & Hrun & H1 & H2 & H3).
  - cbn [fst snd]. split_and!; [done| |].
    + intros s v H. by apply elem_of_nil in H.
    + intros s H. destruct (m !! s) eqn:E; [|done]. exfalso. apply H, Hm. by rewrite E.
  - intros pre s post [n2v v2n] Hst (H1 & H2 & H3). cbn [fst snd] in *. subst v2n. cbn [app length].
    rewrite app_length. cbn [length]. destruct (N.ltb_spec max_vertices (N.of_nat (S (length pre + 1)))) as [Hlt|Hle].
    { exfalso. rewrite Hst, app_length in Hmax. cbn [length] in Hmax. lia. }
    eexists. split; [reflexivity|]. cbn [fst snd]. assert (s ∉ pre) as Hs.
    { rewrite Hst in Hnd. apply NoDup_app in Hnd as (_ & Hd & _). intros H. apply (Hd s H). left. }
    split_and!; [done| |].
    + intros s' v Hs'. destruct (decide (s = s')) as [<-|NE].
      * rewrite lookup_insert. split.
        -- intros E. injection E as <-. exists (length pre). split; [done|]. by rewrite lookup_app_r, Nat.sub_diag by lia.
        -- intros (i & -> & Hi). f_equal. f_equal. rewrite lookup_app in Hi. destruct (pre !! i) eqn:Ep.
           { injection Hi as ->. exfalso. apply Hs. by eapply elem_of_list_lookup_2. }
           apply list_lookup_singleton_Some in Hi as [Hi _]. apply lookup_ge_None in Ep. lia.
      * rewrite lookup_insert_ne by done. apply elem_of_app in Hs' as [Hs'|Hs']; [|apply elem_of_list_singleton in Hs'; congruence].
        rewrite H2 by done. split; intros (i & -> & Hi); exists i; (split; [done|]).
        -- by apply lookup_app_l_Some.
        -- rewrite lookup_app in Hi. destruct (pre !! i) eqn:Ep; [done|].
           apply list_lookup_singleton_Some in Hi as [_ Hi]. congruence.
    + intros s' Hs'. rewrite lookup_insert_ne; [by apply H3|]. intros ->. apply Hs'. rewrite Hst. set_solver.
  - cbn [fst snd] in *. subst v2n. exists n2v. split; [done|]. intros s v. destruct (decide (s ∈ st)) as [Hs|Hs]; [by apply H2|].
    rewrite H3 by done. split; [done|]. intros (i & _ & Hi). exfalso. apply Hs. by eapply elem_of_list_lookup_2.
Qed.

(** ** numbers of the edges *)
Definition num (n2v : gmap string nat) (s : string) : nat := default 0 (n2v !! s).
Definition nedge (n2v : gmap string nat) (e : edge_name) : nat * nat :=
  (Nat.min (num n2v (fst e)) (num n2v (snd e)), Nat.max (num n2v (fst e)) (num n2v (snd e))).

Lemma edges_ok (es : list edge_name) st n2v n2e0 :
  (forall s v, n2v !! s = Some v <-> exists i, v = S i /\ st !! i = Some s) ->
  (forall s, s ∈ st <-> vertex_name_in es s) ->
  (forall i j e f, es !! i = Some e -> es !! j = Some f -> same_edge e f -> i = j) ->
  exists index n2e vmax, ofold (edge_step n2v) es ([], ∅, n2e0, 0) = Some (map (nedge n2v) es, index, n2e, vmax) /\
  vmax = length st /\
  (forall p a, index !! p = Some a <-> map (nedge n2v) es !! a = Some p) /\
  (forall a e f, es !! a = Some e -> same_edge e f -> n2e !! f = Some (Some a)) /\
  (forall f, (forall e, e ∈ es -> ~ same_edge e f) -> n2e !! f = n2e0 !! f).
Proof.
  intros Hn2v Hst Hdist.
  assert (Hnum : forall s, vertex_name_in es s -> exists i, num n2v s = S i /\ st !! i = Some s).
  { intros s Hs. apply Hst in Hs. apply elem_of_list_lookup in Hs as [i Hi]. exists i. split; [|done].
    unfold num. assert (n2v !! s = Some (S i)) as -> by (apply Hn2v; by exists i). done. }
  assert (Hinj : forall s s', vertex_name_in es s -> vertex_name_in es s' -> num n2v s = num n2v s' -> s = s').
  { intros s s' H1 H2 E. destruct (Hnum s H1) as (i & Ei & Hi), (Hnum s' H2) as (j & Ej & Hj).
    assert (i = j) as -> by congruence. congruence. }
  assert (Hvin : forall e, e ∈ es -> vertex_name_in es (fst e) /\ vertex_name_in es (snd e)).
  { intros e He. split; exists e; tauto. }
  assert (Hnedge : forall e f, e ∈ es -> f ∈ es -> nedge n2v e = nedge n2v f -> same_edge e f).
  { intros [e1 e2] [f1 f2] He Hf. unfold nedge. cbn [fst snd]. intros H. injection H as H1 H2.
    destruct (Hvin _ He) as [Ve1 Ve2], (Hvin _ Hf) as [Vf1 Vf2]. cbn [fst snd] in *.
    assert ((num n2v e1 = num n2v f1 /\ num n2v e2 = num n2v f2) \/ (num n2v e1 = num n2v f2 /\ num n2v e2 = num n2v f1)) as [[E1 E2]|[E1 E2]] by lia.
    - left. by rewrite (Hinj e1 f1), (Hinj e2 f2).
    - right. cbn [fst snd]. by rewrite (Hinj e1 f2), (Hinj e2 f1). }
  destruct (ofold_inv (edge_step n2v) (fun pre s => exists index n2e vmax, s = (map (nedge n2v) pre, index, n2e, vmax) /\
      vmax <= length st /\ (forall e, e ∈ pre -> snd (nedge n2v e) <= vmax) /\
      (forall p a, index !! p = Some a <-> map (nedge n2v) pre !! a = Some p) /\
      (forall a e f, pre !! a = Some e -> same_edge e f -> n2e !! f = Some (Some a)) /\
      (forall f, (forall e, e ∈ pre -> ~ same_edge e f) -> n2e !! f = n2e0 !! f)) es ([], ∅, n2e0, 0))
    as (s & Hrun & index & n2e & vmax & -> & Hv1 & Hv2 & Hi & Hn1 & Hn2).
  - exists ∅, n2e0, 0. split_and!; [done|lia| | | |].
    + intros e H. by apply elem_of_nil in H.
    + intros p a. rewrite lookup_empty. done.
    + intros a e f H. done.
    + done.
  - intros pre e post s Hes (index & n2e & vmax & -> & Hv1 & Hv2 & Hi & Hn1 & Hn2).
    assert (He : e ∈ es) by (rewrite Hes; set_solver). destruct (Hvin e He) as [V1 V2].
    destruct (Hnum _ V1) as (i1 & E1 & Hi1), (Hnum _ V2) as (i2 & E2 & Hi2).
    cbn [edge_step]. fold (num n2v (fst e)) (num n2v (snd e)).
    assert (Hlen : length (map (nedge n2v) pre) = length pre) by apply map_length.
    assert (exists s1 s2, (if num n2v (snd e) <? num n2v (fst e) then (snd e, fst e, num n2v (snd e), num n2v (fst e))
              else (fst e, snd e, num n2v (fst e), num n2v (snd e))) = (s1, s2, fst (nedge n2v e), snd (nedge n2v e)) /\
              same_edge e (s1, s2) /\ same_edge e (s2, s1)) as (s1 & s2 & -> & Hse1 & Hse2).
    { destruct e as [e1 e2]. unfold nedge. cbn [fst snd]. destruct (Nat.ltb_spec (num n2v e2) (num n2v e1)).
      - exists e2, e1. rewrite Nat.min_r, Nat.max_l by lia. split_and!; [done|by right|by left].
      - exists e1, e2. rewrite Nat.min_l, Nat.max_r by lia. split_and!; [done|by left|by right]. }
    assert (Hp : fst (nedge n2v e) <> 0 /\ snd (nedge n2v e) <> 0 /\ snd (nedge n2v e) <= length st).
    { unfold nedge. cbn [fst snd]. rewrite E1, E2. apply lookup_lt_Some in Hi1, Hi2. lia. }
    destruct Hp as (Hp1 & Hp2 & Hp3).
    destruct (Nat.eqb_spec (fst (nedge n2v e)) 0); [done|]. destruct (Nat.eqb_spec (snd (nedge n2v e)) 0); [done|]. cbn [orb].
    assert (Hepos : es !! length pre = Some e) by (rewrite Hes, lookup_app_r, Nat.sub_diag by lia; done).
    assert (Hnew : forall f, f ∈ pre -> ~ same_edge e f).
    { intros f Hf Hse. apply elem_of_list_lookup in Hf as [j Hj].
      assert (es !! j = Some f) as Hj' by (rewrite Hes; by apply lookup_app_l_Some).
      assert (length pre = j) by (by eapply Hdist). apply lookup_lt_Some in Hj. lia. }
    assert (index !! (fst (nedge n2v e), snd (nedge n2v e)) = None) as Hix.
    { destruct (index !! _) as [a|] eqn:Ea; [|done]. exfalso. apply Hi in Ea. apply list_lookup_fmap_Some in Ea as (f & Hf & E) || (rewrite list_lookup_fmap in Ea; apply fmap_Some in Ea as (f & Hf & E)).
      apply elem_of_list_lookup_2 in Hf. apply (Hnew f Hf). apply Hnedge; [done| |].
      - rewrite Hes. set_solver.
      - rewrite <- E. by destruct (nedge n2v e). }
    rewrite Hix. eexists. split; [reflexivity|]. do 3 eexists. split; [|split_and!].
    + rewrite map_app. cbn [map]. replace (fst (nedge n2v e), snd (nedge n2v e)) with (nedge n2v e) by (by destruct (nedge n2v e)). done.
    + lia.
    + intros f Hf. apply elem_of_app in Hf as [Hf|Hf]; [specialize (Hv2 f Hf); lia|]. apply elem_of_list_singleton in Hf as ->. lia.
    + intros p a. rewrite map_app. cbn [map]. replace (fst (nedge n2v e), snd (nedge n2v e)) with (nedge n2v e) in * by (by destruct (nedge n2v e)).
      destruct (decide (nedge n2v e = p)) as [<-|NE].
      * rewrite lookup_insert, Hlen. split.
        -- intros H. injection H as <-. rewrite lookup_app_r by lia. by rewrite Hlen, Nat.sub_diag.
        -- rewrite lookup_app. destruct (map (nedge n2v) pre !! a) as [q|] eqn:Eq.
           ++ intros H. injection H as ->. apply Hi in Eq. congruence.
           ++ intros H. apply list_lookup_singleton_Some in H as [H _]. apply lookup_ge_None in Eq. f_equal. lia.
      * rewrite lookup_insert_ne by done. rewrite Hi, lookup_app. destruct (map (nedge n2v) pre !! a) as [q|] eqn:Eq; [done|].
        split; [done|]. intros H. apply list_lookup_singleton_Some in H as [_ H]. done.
    + intros a f g Hf Hse. rewrite Hlen. rewrite lookup_app in Hf. destruct (pre !! a) as [f'|] eqn:Ef.
      * injection Hf as ->.
        assert (~ same_edge e g). { intros H. apply (Hnew f); [by eapply elem_of_list_lookup_2|]. eapply same_edge_trans; [done|by apply same_edge_sym]. }
        rewrite lookup_insert_ne by (intros <-; done). rewrite lookup_insert_ne by (intros <-; done). by eapply Hn1.
      * apply list_lookup_singleton_Some in Hf as [Ha <-]. apply lookup_ge_None in Ef.
        assert (a = length pre) as -> by lia.
        destruct (decide ((s2, s1) = g)) as [<-|N1]; [by rewrite lookup_insert|]. rewrite lookup_insert_ne by done.
        destruct (decide ((s1, s2) = g)) as [<-|N2]; [by rewrite lookup_insert|]. exfalso.
        apply same_edge_sym in Hse1. pose proof (same_edge_trans _ _ _ Hse1 Hse) as [H|H]; [by subst|]. cbn [fst snd] in H. by subst.
    + intros f Hf. rewrite lookup_insert_ne by (intros <-; apply (Hf e); [set_solver|done]).
      rewrite lookup_insert_ne by (intros <-; apply (Hf e); [set_solver|done]). apply Hn2. intros e' He'. apply Hf. set_solver.
  - exists index, n2e, vmax. split_and!; [done| |done|done|done].
    destruct (decide (length st = 0)) as [Hz|Hz]; [lia|].
    destruct (lookup_lt_is_Some_2 st (length st - 1)) as [s Hs]; [lia|].
    assert (vertex_name_in es s) as Hvs by (apply Hst; by eapply elem_of_list_lookup_2).
    assert (num n2v s = length st) as En.
    { unfold num. assert (n2v !! s = Some (length st)) as ->; [|done]. apply Hn2v. exists (length st - 1). split; [lia|done]. }
    destruct Hvs as (e & He & Hes'). specialize (Hv2 e He). unfold nedge in Hv2. cbn [snd] in Hv2.
    destruct Hes' as [->| ->] || destruct Hes' as [E'|E']; [rewrite E' in Hv2|rewrite E' in Hv2]; lia.
Qed.
