(** Graph::update: assembly. *)
From stdpp Require Import strings gmap sorting.
From Coq Require Import String.
From Verif Require Import Base M_Graph S_Graph P_Graph P_Graph2 P_Graph3.
Local Open Scope nat_scope.

(** ** the first edge at which all colors have been seen *)
Definition ctouch (es : list (nat * nat)) (col : list nat) (b n : nat) : Prop := exists v, inc es b v /\ col !! v = Some n.
Definition good (touched : list bool) (k num : nat) (U : list nat) : Prop :=
  length touched = S num /\ NoDup U /\ length U = k /\ forall n, n ∈ U <-> touched !! n = Some false.

Lemma touch_ok touched k num U n : good touched k num U -> n <= num -> 1 <= k ->
  exists t' k' stop, touch (touched, k) n = Some (t', k', stop) /\
  if stop : bool then forall x, x ∈ U <-> x = n
  else 1 <= k' /\ exists U', good t' k' num U' /\ forall x, x ∈ U' <-> x ∈ U /\ x <> n.
Proof.
  intros (H1 & H2 & H3 & H4) Hn Hk. unfold touch. destruct (lookup_lt_is_Some_2 touched n) as [t Ht]; [lia|]. rewrite Ht. cbn [mbind option_bind].
  destruct t.
  - do 3 eexists. split; [reflexivity|]. cbv iota. split; [done|]. exists U. split; [done|]. intros x. split; [|tauto]. intros Hx. split; [done|].
    intros ->. apply H4 in Hx. congruence.
  - assert (n ∈ U) as HnU by (by apply H4). destruct (Nat.eqb_spec (k - 1) 0) as [E|E].
    + do 3 eexists. split; [reflexivity|]. cbv iota. intros x. split; [|by intros ->]. intros Hx.
      destruct U as [|u [|u' U]]; [by apply elem_of_nil in Hx| |simpl in H3; lia].
      apply elem_of_list_singleton in Hx, HnU. congruence.
    + do 3 eexists. split; [reflexivity|]. cbv iota. split; [lia|]. exists (filter (fun x => x <> n) U). split.
      * split_and!; [by rewrite insert_length|by apply NoDup_filter| |].
        -- clear H1 H4 Ht. revert H3 HnU E Hk. revert k. induction H2 as [|u U Hu Hnd IH]; intros k H3 HnU E Hk; [by apply elem_of_nil in HnU|].
           destruct (decide (u = n)) as [->|NE].
           ++ rewrite filter_cons_False by tauto. simpl in H3. assert (filter (λ x, x ≠ n) U = U) as ->; [|lia].
              clear -Hu. induction U as [|y U IH]; [done|]. rewrite filter_cons_True; [|set_solver]. f_equal. apply IH. set_solver.
           ++ rewrite filter_cons_True by done. simpl in *. apply elem_of_cons in HnU as [->|HnU]; [done|].
              destruct (decide (k - 1 - 1 = 0)) as [E2|E2].
              ** destruct U as [|y [|]]; simpl in *; [by apply elem_of_nil in HnU| |lia]. apply elem_of_list_singleton in HnU as <-.
                 rewrite filter_cons_False by tauto. simpl. lia.
              ** rewrite (IH (k - 1)); [lia|lia|done|lia|lia].
        -- intros x. rewrite elem_of_list_filter, H4. destruct (decide (n = x)) as [<-|NE].
           ++ rewrite list_lookup_insert by lia. naive_solver.
           ++ rewrite list_lookup_insert_ne by done. naive_solver.
      * intros x. rewrite elem_of_list_filter. tauto.
Qed.

Lemma final_color_ok num col : (forall v x, col !! v = Some x -> x <= num) -> forall es a touched k U,
  (forall b e, es !! b = Some e -> fst e < length col /\ snd e < length col) -> good touched k num U -> 1 <= k ->
  exists first, final_color_edge es col a touched k = Some first /\
  ((a <= first < a + length es /\ (forall n, n ∈ U -> exists b, a + b <= first /\ ctouch es col b n) /\
    (forall b, a + b < first -> exists n, n ∈ U /\ forall c, c <= b -> ~ ctouch es col c n)) \/
   (exists n, n ∈ U /\ forall b, ~ ctouch es col b n)).
Proof.
  intros Hcol. induction es as [|e es IH]; intros a touched k U Hes Hg Hk; cbn [final_color_edge].
  - exists 0. split; [done|]. right. destruct Hg as (_ & _ & Hlen & _). destruct U as [|u U]; [simpl in Hlen; lia|].
    exists u. split; [left|]. intros b (v & (f & Hf & _) & _). done.
  - destruct (Hes 0 e eq_refl) as [R1 R2].
    destruct (lookup_lt_is_Some_2 col (fst e) R1) as [n1 Hn1], (lookup_lt_is_Some_2 col (snd e) R2) as [n2 Hn2].
    rewrite Hn1, Hn2. cbn [mbind option_bind].
    assert (T1 : ctouch (e :: es) col 0 n1) by (exists (fst e); split; [exists e; split; [done|by left]|done]).
    assert (T2 : ctouch (e :: es) col 0 n2) by (exists (snd e); split; [exists e; split; [done|by right]|done]).
    assert (T0 : forall n, ctouch (e :: es) col 0 n -> n = n1 \/ n = n2).
    { intros n (v & (f & Hf & Hv) & Hc). injection Hf as <-. destruct Hv as [<-|<-]; [left|right]; congruence. }
    assert (TS : forall b n, ctouch (e :: es) col (S b) n <-> ctouch es col b n) by done.
    destruct (touch_ok touched k num U n1 Hg) as (t1 & k1 & stop1 & -> & Hs1); [by eapply Hcol|done|]. cbn [mbind option_bind].
    destruct stop1.
    { exists a. split; [done|]. left. simpl. split_and!; [lia|lia| |lia]. intros n Hn. apply Hs1 in Hn as ->. exists 0. split; [lia|done]. }
    destruct Hs1 as (Hk1 & U1 & Hg1 & HU1).
    destruct (touch_ok t1 k1 num U1 n2 Hg1) as (t2 & k2 & stop2 & -> & Hs2); [by eapply Hcol|done|]. cbn [mbind option_bind].
    destruct stop2.
    { exists a. split; [done|]. left. simpl. split_and!; [lia|lia| |lia]. intros n Hn. exists 0. split; [lia|].
      destruct (decide (n = n1)) as [->|NE]; [done|]. assert (n = n2) as ->; [|done]. apply Hs2. by apply HU1. }
    destruct Hs2 as (Hk2 & U2 & Hg2 & HU2).
    destruct (IH (S a) t2 k2 U2) as (first & -> & Hfirst); [intros b f Hb; by apply (Hes (S b))|done|done|].
    exists first. split; [done|]. destruct Hfirst as [(F1 & F2 & F3)|(n & Hn & F)].
    + left. simpl. split_and!; [lia|lia| |].
      * intros n Hn. destruct (decide (n = n1)) as [->|N1]; [exists 0; split; [lia|done]|].
        destruct (decide (n = n2)) as [->|N2]; [exists 0; split; [lia|done]|].
        destruct (F2 n) as (b & Hb & Ht); [apply HU2; rewrite HU1; tauto|]. exists (S b). split; [lia|done].
      * intros b Hb. destruct b as [|b].
        -- assert (exists n, n ∈ U2) as [n Hn]. { destruct Hg2 as (_ & _ & Hl & _). destruct U2 as [|u U2']; [simpl in Hl; lia|]. exists u. left. }
           exists n. apply HU2 in Hn as [Hn Hn2']. apply HU1 in Hn as [Hn Hn1']. split; [done|]. intros c Hc Ht. assert (c = 0) as -> by lia.
           apply T0 in Ht. tauto.
        -- destruct (F3 b) as (n & Hn & Hno); [lia|]. exists n. apply HU2 in Hn as [Hn Hn2']. apply HU1 in Hn as [Hn Hn1']. split; [done|].
           intros [|c] Hc Ht; [apply T0 in Ht; tauto|]. apply TS in Ht. apply (Hno c); [lia|done].
    + right. exists n. apply HU2 in Hn as [Hn Hn2']. apply HU1 in Hn as [Hn Hn1']. split; [done|].
      intros [|b] Ht; [apply T0 in Ht; tauto|]. apply TS in Ht. by apply (F b).
Qed.

Lemma final_color_top num col es m : length col = S m -> (forall v x, col !! v = Some x -> x <= num) -> col !! 0 = Some 0 ->
  (forall b e, es !! b = Some e -> fst e <= m /\ snd e <= m) ->
  (forall n, 1 <= n <= num -> exists b, ctouch es col b n) ->
  exists first, final_color_edge es col 0 (true :: replicate num false) num = Some first /\
  forall a, first <= a <-> forall n, 1 <= n <= num -> exists b, b <= a /\ ctouch es col b n.
Proof.
  intros Hlen Hcol Hc0 Hes Hall. destruct (decide (num = 0)) as [->|Hnum].
  - exists 0. split; [|intros a; split; [intros _ n Hn; lia|lia]].
    assert (forall k a, final_color_edge es col a [true] k = Some 0) as H; [|apply H].
    revert Hes. clear Hall. induction es as [|e es IH]; intros Hes k a; [done|]. cbn [final_color_edge].
    destruct (Hes 0 e eq_refl). destruct (lookup_lt_is_Some_2 col (fst e)) as [n1 Hn1]; [lia|]. destruct (lookup_lt_is_Some_2 col (snd e)) as [n2 Hn2]; [lia|].
    rewrite Hn1, Hn2. cbn [mbind option_bind]. pose proof (Hcol _ _ Hn1). pose proof (Hcol _ _ Hn2).
    assert (n1 = 0) as -> by lia. assert (n2 = 0) as -> by lia. cbn. apply IH. intros b f Hb. by apply (Hes (S b)).
  - destruct (final_color_ok num col Hcol es 0 (true :: replicate num false) num (seq 1 num)) as (first & Hrun & Hf).
    + intros b e Hb. destruct (Hes b e Hb). lia.
    + split_and!; [simpl; by rewrite replicate_length|apply NoDup_seq|apply seq_length|]. intros n. rewrite elem_of_seq. destruct n as [|n]; simpl.
      * split; [lia|done].
      * rewrite lookup_replicate. split; [intros; split; [done|lia]|intros [_ ?]; lia].
    + lia.
    + exists first. split; [done|]. destruct Hf as [(F1 & F2 & F3)|(n & Hn & Hno)].
      * intros a. split.
        -- intros Ha n Hn. destruct (F2 n) as (b & Hb & Ht); [apply elem_of_seq; lia|]. exists b. split; [lia|done].
        -- intros H. destruct (decide (first <= a)) as [|Hfa]; [done|]. exfalso. destruct (F3 a) as (n & Hn & Hno); [lia|]. apply elem_of_seq in Hn.
           destruct (H n) as (b & Hb & Ht); [lia|]. by apply (Hno b).
      * exfalso. apply elem_of_seq in Hn. destruct (Hall n) as [b Hb]; [lia|]. by apply (Hno b).
Qed.

(** ** the numbered edges *)
Lemma nedge_ok es st n2v :
  (forall s v, n2v !! s = Some v <-> exists i, v = S i /\ st !! i = Some s) -> NoDup st ->
  (forall s, s ∈ st <-> vertex_name_in es s) -> leaving es st ->
  (forall i j e f, es !! i = Some e -> es !! j = Some f -> same_edge e f -> i = j) ->
  ne_ok (length st) (map (nedge n2v) es) /\ forall a s, vertex_name_in es s -> ninc es a s <-> inc (map (nedge n2v) es) a (num n2v s).
Proof.
  intros Hn2v Hnd Hst Hlv Hdist.
  assert (Hnum : forall s, vertex_name_in es s -> exists i, num n2v s = S i /\ st !! i = Some s).
  { intros s Hs. apply Hst in Hs. apply elem_of_list_lookup in Hs as [i Hi]. exists i. split; [|done].
    unfold num. assert (n2v !! s = Some (S i)) as -> by (apply Hn2v; by exists i). done. }
  assert (Hinj : forall s s', vertex_name_in es s -> vertex_name_in es s' -> num n2v s = num n2v s' -> s = s').
  { intros s s' H1 H2 E. destruct (Hnum s H1) as (i & Ei & Hi), (Hnum s' H2) as (j & Ej & Hj).
    assert (i = j) as -> by congruence. congruence. }
  assert (Hvin : forall e, e ∈ es -> vertex_name_in es (fst e) /\ vertex_name_in es (snd e)).
  { intros e He. split; exists e; tauto. }
  assert (Hlook : forall a p, map (nedge n2v) es !! a = Some p <-> exists e, es !! a = Some e /\ p = nedge n2v e).
  { intros a p. rewrite list_lookup_fmap, fmap_Some. done. }
  assert (Hinc : forall a s, vertex_name_in es s -> ninc es a s <-> inc (map (nedge n2v) es) a (num n2v s)).
  { intros a s Hs. unfold ninc, inc. split.
    - intros (e & He & Hes). exists (nedge n2v e). split; [apply Hlook; by exists e|]. unfold nedge. cbn [fst snd].
      destruct Hes as [->|E]; [lia|]. rewrite E. lia.
    - intros (p & Hp & Hps). apply Hlook in Hp as (e & He & ->). exists e. split; [done|].
      destruct (Hvin e) as [V1 V2]; [by eapply elem_of_list_lookup_2|]. unfold nedge in Hps. cbn [fst snd] in Hps.
      assert (num n2v (fst e) = num n2v s \/ num n2v (snd e) = num n2v s) as [E|E] by lia; [left|right]; by apply Hinj. }
  split; [|done].
  assert (Hname : forall v, 1 <= v <= length st -> exists s, st !! (v - 1) = Some s /\ vertex_name_in es s /\ num n2v s = v).
  { intros v Hv. destruct (lookup_lt_is_Some_2 st (v - 1)) as [s Hs]; [lia|]. exists s. split_and!; [done| |].
    - apply Hst. by eapply elem_of_list_lookup_2.
    - unfold num. assert (n2v !! s = Some v) as ->; [|done]. apply Hn2v. exists (v - 1). split; [lia|done]. }
  constructor.
  - intros a p Hp. apply Hlook in Hp as (e & He & ->). destruct (Hvin e) as [V1 V2]; [by eapply elem_of_list_lookup_2|].
    destruct (Hnum _ V1) as (i & Ei & Hi), (Hnum _ V2) as (j & Ej & Hj). apply lookup_lt_Some in Hi, Hj. unfold nedge. cbn [fst snd]. lia.
  - intros v Hv. destruct (Hname v Hv) as (s & _ & Hs & <-). pose proof Hs as (e & He & Hes). apply elem_of_list_lookup in He as [a Ha].
    exists a. apply Hinc; [done|]. by exists e.
  - intros v w a Hv Hvw Hw Ha. destruct (Hname v) as (s & Es & Hs & <-); [lia|]. destruct (Hname w) as (t & Et & Ht & <-); [lia|].
    apply Hinc in Ha; [|done]. destruct (Hlv (num n2v s - 1) (num n2v t - 1) s t ltac:(lia) Es Et a Ha) as (b & Hb & Hb'). exists b. split; [done|].
    by apply Hinc.
  - intros a b p Ha Hb. apply Hlook in Ha as (e & He & ->). apply Hlook in Hb as (f & Hf & E). apply (Hdist a b e f He Hf).
    destruct (Hvin e) as [Ve1 Ve2]; [by eapply elem_of_list_lookup_2|]. destruct (Hvin f) as [Vf1 Vf2]; [by eapply elem_of_list_lookup_2|].
    unfold nedge in E. injection E as E1 E2. destruct e as [e1 e2], f as [f1 f2]. cbn [fst snd] in *.
    assert ((num n2v e1 = num n2v f1 /\ num n2v e2 = num n2v f2) \/ (num n2v e1 = num n2v f2 /\ num n2v e2 = num n2v f1)) as [[A B]|[A B]] by lia.
    + left. by rewrite (Hinj e1 f1), (Hinj e2 f2).
    + right. cbn [fst snd]. by rewrite (Hinj e1 f2), (Hinj e2 f1).
Qed.
