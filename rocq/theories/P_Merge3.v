(** One level of the builder with merge_states. *)
From Verif Require Import Base M_Table Tree M_Hash P_Hash M_Sweeper M_Engine P_Sweep P_Pass P_Pass2 P_Core P_Upd P_Level M_Merge P_Merge1 P_Merge2.
Local Open Scope nat_scope.

(** ** The nodes created by pass 1, in order *)
Lemma live_lookup {S} (ps : list (pnode S)) ids j p f : ps !! j = Some p -> ids !! j = Some f -> neqb f n1 = false ->
  List.filter livep (zip ps ids) !! nlive (take j ids) = Some (p, f).
Proof.
  revert ps j. induction ids as [|x ids IH]; intros ps j Hp Hf Hn; [done|].
  destruct ps as [|q ps]; [done|]. destruct j as [|j]; simpl in Hp, Hf.
  - inversion Hp; inversion Hf; subst. simpl. unfold livep at 1. simpl. by rewrite Hn.
  - cbn [zip zip_with List.filter take]. unfold livep at 1. cbn [snd]. unfold nlive, live. cbn [List.filter].
    destruct (neqb x n1); cbn [negb length]; by apply IH.
Qed.

Lemma live_lookup_inv {S} (ps : list (pnode S)) ids c p f : length ids = length ps ->
  List.filter livep (zip ps ids) !! c = Some (p, f) ->
  exists j, ps !! j = Some p /\ ids !! j = Some f /\ neqb f n1 = false /\ nlive (take j ids) = c.
Proof.
  revert ps c. induction ids as [|x ids IH]; intros ps c Hl H; [by destruct ps|].
  destruct ps as [|q ps]; [done|]. cbn [zip zip_with List.filter] in H. unfold livep at 1 in H. cbn [snd] in H.
  destruct (neqb x n1) eqn:Ex; cbn [negb] in H.
  - destruct (IH ps c) as (j & H1 & H2 & H3 & H4); [simpl in Hl; lia|done|]. exists (Datatypes.S j). split_and!; try done.
    unfold nlive, live in *. cbn [take List.filter]. by rewrite Ex.
  - destruct c as [|c]; simpl in H.
    + inversion H; subst. exists 0. done.
    + destruct (IH ps c) as (j & H1 & H2 & H3 & H4); [simpl in Hl; lia|done|]. exists (Datatypes.S j). split_and!; try done.
      unfold nlive, live in *. cbn [take List.filter]. rewrite Ex. cbn [negb length]. by rewrite H4.
Qed.

Lemma live_length {S} (ps : list (pnode S)) ids : length ids = length ps -> length (List.filter livep (zip ps ids)) = nlive ids.
Proof.
  revert ps. induction ids as [|x ids IH]; intros ps Hl; [by destruct ps|]. destruct ps as [|q ps]; [done|].
  cbn [zip zip_with List.filter]. unfold livep at 1. cbn [snd]. unfold nlive, live. cbn [List.filter].
  specialize (IH ps ltac:(simpl in Hl; lia)). destruct (neqb x n1); cbn [negb length]; [done|by rewrite IH].
Qed.

Lemma mpass1_single {S} hashf eqbf mrg i (p : pnode S) m tr r : mpass1 hashf eqbf mrg i [p] m tr = Some r -> fst (fst r) = [mk i m].
Proof.
  unfold mpass1. cbn [length Nat.mul Nat.add ofold]. unfold mpass1_step. cbn [length].
  destruct (ht_add_weak (fun e : nat * S => hashf i (snd e)) (fun e e' : nat * S => eqbf i (snd e) (snd e')) (ht_init 2) (0, p_st p)
    (ht_init_inv 2)) as (u' & slot & e & Ea & Hu' & Hat & Hmx' & Hcase).
  { destruct (@ht_init_facts (nat * S) 2) as (F1 & _ & _ & F2 & F3). lia. }
  rewrite Ea. cbn [mbind option_bind]. rewrite Hat. cbn [mbind option_bind].
  assert (fst e = 0) as ->.
  { destruct (@ht_init_facts (nat * S) 2) as (F1 & _ & _ & F2 & F3).
    destruct Hcase as [Hcase|Hcase]; rewrite F3 in Hcase.
    - destruct_and? Hcase. repeat match goal with H : _ ∈ [] |- _ => by apply elem_of_nil in H end.
    - destruct Hcase as (-> & _). done. }
  rewrite Nat.eqb_refl. destruct (write_src (fst tr) (snd tr) (p_src p) (mk i m)) as [tr'|]; [|done]. cbn.
  intros H. by inversion H.
Qed.

(** ** A sweep keeps the record of the branches to the 1-terminal *)
Lemma sweep_OI {S} (FS : S -> Prop) k t t' newId one osrc (P : nat -> nat -> nat -> Prop) :
  0 < k -> k <= length t -> sweepable k t -> sweep_rows k t = Some (t', newId) ->
  (forall r c b, k <= r -> P r c b) -> OI FS t P one osrc ->
  exists osrc', sweep_src k newId osrc = Some osrc' /\ OI FS t' P one osrc'.
Proof.
  intros Hk Hkl Hsw E HPk HO.
  destruct (sweep_rows_ok k t Hk Hkl Hsw) as (t1 & newId1 & E1 & Hl & Hl' & Hlow & Hnid & Hrw).
  rewrite E in E1. inversion E1; subst t1 newId1. clear E1.
  assert (forall c r b, r < k -> child t' (mk r c) b = child t (mk r c) b) as Hcl.
  { intros c r b Hr. unfold child, tget. simpl. by rewrite Hlow. }
  assert (forall g, is1 g -> nmap k newId g = Some g) as Hn1.
  { intros g Hg. unfold nmap. inversion Hg as [[H1 H2]]. rewrite H1. destruct (Nat.leb_spec k 0); [lia|done]. }
  assert (forall r c p b g, k <= r -> tget t (mk r c) = Some p -> p !! b = Some g -> is1 g ->
    exists c', (r0 ← newId !! r; r0 !! c) = Some (mk r c') /\ child t' (mk r c') b = Some g) as Hone.
  { intros r c p b g Hr Hp Hb Hg. unfold tget in Hp. simpl in Hp. destruct (t !! r) as [x|] eqn:Ex; [|done]. simpl in Hp.
    destruct (Hrw r x Hr Ex) as (kept & ids & E2 & E3 & W1 & W2 & W3 & W4 & W5).
    destruct (W3 c p Hp) as (q & Hq & HH). rewrite E3. cbn [mbind option_bind].
    apply mapM_Some in Hq. destruct (Forall2_lookup_l _ _ _ _ _ Hq Hb) as (g' & Hg' & En). rewrite (Hn1 g Hg) in En. inversion En; subst g'.
    destruct HH as [[Hd _]|(Hd & c' & Hid & Hkq)].
    - exfalso. unfold node_dead in Hd. rewrite forallb_forall in Hd. specialize (Hd g).
      rewrite <- elem_of_list_In in Hd. specialize (Hd (elem_of_list_lookup_2 _ _ _ Hg')).
      unfold neqb in Hd. inversion Hg as [[H1 H2]]. rewrite H1, H2 in Hd. done.
    - exists c'. split; [done|]. unfold child, tget. simpl. rewrite E2. simpl. rewrite Hkq. done. }
  assert (exists osrc', sweep_src k newId osrc = Some osrc') as [osrc' Es].
  { unfold sweep_src. apply mapM_is_Some. intros [r c b] Hx. cbn [nb_row nb_col nb_val].
    destruct (Nat.leb_spec k r) as [Hr|]; [|by eexists].
    destruct (oi_in _ _ _ _ _ HO r c b Hx) as (_ & _ & g & Hg & Hg1). unfold child in Hg.
    destruct (tget t (mk r c)) as [p|] eqn:Hp; [|done]. destruct (Hone r c p b g Hr Hp Hg Hg1) as (c' & Hc' & _).
    destruct (newId !! r) as [y|]; [|done]. cbn [mbind option_bind] in *. rewrite Hc'. by eexists. }
  exists osrc'. split; [done|]. unfold sweep_src in Es. apply mapM_Some in Es.
  constructor.
  - intros r c b Hx. apply elem_of_list_lookup in Hx as [q Hq].
    destruct (Forall2_lookup_r _ _ _ _ _ Es Hq) as ([r0 c0 b0] & Hq0 & En). cbn [nb_row nb_col nb_val] in En.
    pose proof (oi_in _ _ _ _ _ HO r0 c0 b0 (elem_of_list_lookup_2 _ _ _ Hq0)) as (Hr0 & HP0 & g & Hg & Hg1).
    destruct (Nat.leb_spec k r0) as [Hr|Hr].
    + unfold child in Hg. destruct (tget t (mk r0 c0)) as [p|] eqn:Hp; [|done].
      destruct (Hone r0 c0 p b0 g Hr Hp Hg Hg1) as (c' & Hc' & Hch).
      destruct (newId !! r0) as [y|]; [|done]. cbn [mbind option_bind] in *. rewrite Hc' in En. cbn in En. inversion En; subst.
      split; [done|]. split; [by apply HPk|]. by exists g.
    + inversion En; subst. split; [done|]. split; [done|]. exists g. by rewrite Hcl.
  - intros r c b g Hr HP Hg Hg1. destruct (decide (k <= r)) as [Hkr|Hkr].
    + unfold child in Hg. destruct (tget t' (mk r c)) as [q|] eqn:Hq; [|done]. simpl in Hg.
      unfold tget in Hq. simpl in Hq. destruct (t' !! r) as [kept0|] eqn:Ek; [|done]. simpl in Hq.
      destruct (t !! r) as [x|] eqn:Ex.
      2: { apply lookup_ge_None in Ex. apply lookup_lt_Some in Ek. lia. }
      destruct (Hrw r x Hkr Ex) as (kept & ids & E2 & E3 & W1 & W2 & W3 & W4 & W5).
      rewrite Ek in E2. inversion E2; subst kept0. destruct (W4 c q Hq) as (Hd & j & p & Hp & Hid & Hm).
      apply mapM_Some in Hm. destruct (Forall2_lookup_r _ _ _ _ _ Hm Hg) as (g0 & Hg0 & En).
      assert (g0 = g) as ->.
      { unfold nmap in En. destruct (Nat.leb_spec k (row g0)) as [Hk0|]; [|by inversion En].
        exfalso. destruct (newId !! row g0) as [y|] eqn:Ey; [|done]. simpl in En.
        destruct (Hsw r x j p g0 Hkr Ex Hp) as [_ Hg0s]; [by eapply elem_of_list_lookup_2|].
        destruct (Hg0s Hk0) as [p0 Hp0]. unfold tget in Hp0. destruct (t !! row g0) as [x0|] eqn:Ex0; [|done].
        destruct (Hrw (row g0) x0 Hk0 Ex0) as (kept1 & ids1 & _ & E3' & _ & _ & _ & _ & W5').
        rewrite E3' in Ey. inversion Ey; subst y. inversion Hg1 as [[H1 H2]].
        rewrite (W5' _ _ En H1) in H2. discriminate H2. }
      assert (Nb r j b ∈ osrc) as Hin.
      { eapply (oi_all _ _ _ _ _ HO); [done|by apply HPk| |exact Hg1]. unfold child, tget. simpl. rewrite Ex. simpl. by rewrite Hp. }
      apply elem_of_list_lookup in Hin as [z Hz]. destruct (Forall2_lookup_l _ _ _ _ _ Es Hz) as (y & Hy & En').
      cbn [nb_row nb_col nb_val] in En'. destruct (Nat.leb_spec k r); [|lia]. rewrite E3 in En'. cbn [mbind option_bind] in En'.
      rewrite Hid in En'. cbn in En'. inversion En'; subst y. by eapply elem_of_list_lookup_2.
    + rewrite Hcl in Hg by lia. pose proof (oi_all _ _ _ _ _ HO r c b g Hr HP Hg Hg1) as Hin.
      apply elem_of_list_lookup in Hin as [z Hz]. destruct (Forall2_lookup_l _ _ _ _ _ Es Hz) as (y & Hy & En').
      cbn [nb_row nb_col nb_val] in En'. destruct (Nat.leb_spec k r); [lia|]. inversion En'; subst y. by eapply elem_of_list_lookup_2.
  - destruct (oi_one _ _ _ _ _ HO) as [->|?]; [|by right]. left. inversion Es. done.
  - apply (oi_fs _ _ _ _ _ HO).
Qed.
