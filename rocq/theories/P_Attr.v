(** Diagrams made by the constructor and by zddSubset carry no empty-set attributes. *)
From Verif Require Import Base Sem M_Table M_Hash M_Sweeper M_Engine M_Builder M_Subset.

Lemma ofold_pres {A S} (f : S -> A -> option S) (P : S -> Prop) l : forall s s',
  (forall s x s', P s -> f s x = Some s' -> P s') -> P s -> ofold f l s = Some s' -> P s'.
Proof.
  induction l as [|x l IH]; intros s s' Hst HP E; simpl in E; [congruence|].
  destruct (f s x) as [s1|] eqn:E1; [|done]. simpl in E. eauto.
Qed.

Notation naf := (fun g : nid => attr g = false).
Notation naT := (Forall (Forall (Forall naf))).

Ltac obind H := let x := fresh "x" in let E := fresh "E" in
  match type of H with mbind _ ?m = Some _ => destruct m as [x|] eqn:E; [cbn [mbind option_bind] in H|done] end.

Lemma naT_tset t f p t' : naT t -> Forall naf p -> tset t f p = Some t' -> naT t'.
Proof.
  unfold tset. intros Ht Hp H. obind H. obind H. injection H as <-. apply Forall_insert; [done|].
  apply Forall_insert; [|done]. by apply (Forall_lookup_1 _ _ _ _ Ht E).
Qed.
Lemma naT_tset_child t f b g t' : naT t -> attr g = false -> tset_child t f b g = Some t' -> naT t'.
Proof.
  unfold tset_child. intros Ht Hg H. obind H. obind H. eapply naT_tset; [done| |exact H]. apply Forall_insert; [|done].
  unfold tget in E. obind E. apply (Forall_lookup_1 _ _ _ _ (Forall_lookup_1 _ _ _ _ Ht E1) E).
Qed.
Lemma na_write t root x f t' root' : naT t -> naf root -> naf f -> write_src t root x f = Some (t', root') -> naT t' /\ naf root'.
Proof.
  destruct x as [|r c b]; simpl; intros Ht Hr Hf H; [by injection H as <- <-|].
  obind H. injection H as <- <-. split; [by eapply naT_tset_child|done].
Qed.

Section engine.
  Context {S : Type} (a : nat) (hashf : nat -> S -> N) (eqbf : nat -> S -> S -> bool) (nt : nat) (ngr : nat -> nat)
    (ch : nat -> nat -> S -> nat -> option (Z * nat * S)) (sched : nat -> list (nat * nat)) (single : bool).

  Lemma na_pass1_group i ps m tr ids m' tr' : naT (fst tr) -> naf (snd tr) ->
    pass1_group hashf eqbf single i ps m tr = Some (ids, m', tr') -> naT (fst tr') /\ naf (snd tr') /\ Forall naf ids.
  Proof.
    intros Ht Hr H. unfold pass1_group in H.
    assert (forall r, ofold (pass1_step hashf eqbf i) ps (ht_init (length ps * 2), [], m, tr) = Some r ->
       naT (fst (snd r)) /\ naf (snd (snd r)) /\ Forall naf (snd (fst (fst r)))) as Hgen.
    { intros r. apply (ofold_pres _ (fun r => naT (fst (snd r)) /\ naf (snd (snd r)) /\ Forall naf (snd (fst (fst r))))).
      - intros [[[u ids0] m0] [t0 r0]] p [[[u' ids1] m1] [t1 r1]] (H1 & H2 & H3) E. cbn [fst snd] in *. unfold pass1_step in E.
        obind E. destruct x as [u2 sl]. obind E. destruct (_ =? _).
        + obind E. destruct x0 as [t2 r2]. injection E as <- <- <- <- <-. destruct (na_write _ _ _ (mk i m0) _ _ H1 H2 eq_refl E2). split_and!; try done.
          apply Forall_app. split; [done|]. by constructor.
        + obind E. obind E. destruct x1 as [t2 r2]. injection E as <- <- <- <- <-.
          destruct (na_write _ _ _ _ _ _ H1 H2 (Forall_lookup_1 _ _ _ _ H3 E2) E3). split_and!; try done.
          apply Forall_app. split; [done|]. by constructor.
      - split_and!; [done|done|constructor]. }
    assert (single = true /\ (exists p, ps = [p]) \/
      (r ← ofold (pass1_step hashf eqbf i) ps (ht_init (length ps * 2), [], m, tr); let '(_, ids, m', tr') := r in Some (ids, m', tr')) = Some (ids, m', tr')) as [[-> [p ->]]|H'].
    { destruct single; [|by right]. destruct ps as [|p [|]]; [by right|left; eauto|by right]. }
    - obind H. destruct x as [t2 r2]. injection H as <- <- <-. destruct (na_write _ _ _ (mk i m) _ _ Ht Hr eq_refl E). split_and!; try done. by constructor.
    - obind H'. destruct x as [[[u ids1] m1] tr1]. injection H' as <- <- <-. by destruct (Hgen _ eq_refl).
  Qed.

  Lemma na_pass1 i w m0 tr idss m tr' : naT (fst tr) -> naf (snd tr) ->
    pass1 hashf eqbf nt ngr single i w m0 tr = Some (idss, m, tr') -> naT (fst tr') /\ naf (snd tr').
  Proof.
    intros Ht Hr H. unfold pass1 in H.
    apply (ofold_pres _ (fun r => naT (fst (snd r)) /\ naf (snd (snd r)))) in H; [done| |done].
    intros [[idss0 m1] tr0] g [[idss1 m2] tr1] [H1 H2] E. cbn [fst snd] in *. obind E. destruct x as [[ids m'] tr2]. injection E as <- <- <-.
    destruct (na_pass1_group _ _ _ _ _ _ _ H1 H2 E0) as (? & ? & ?). done.
  Qed.

  Lemma na_pass2 i w0 idss t r : naT t -> pass2 a nt ngr ch sched i w0 idss t = Some r -> naT (fst (fst (fst r))).
  Proof.
    intros Ht. unfold pass2. apply (ofold_pres _ (fun r => naT (fst (fst (fst r))))); [|done].
    intros s [g y] s' Hs E. obind E. revert E. apply (ofold_pres _ (fun r => naT (fst (fst (fst r))))); [|done].
    clear. intros [[[t w] low] dead] [p f] s' Hs E. unfold pass2_node in E. destruct (neqb f n1); [by injection E as <-|].
    obind E. destruct x as [[[t' w'] low'] z]. injection E as <-. cbn [fst snd]. revert E0. unfold ofor. intros E0.
    apply (ofold_pres _ (fun r => naT (fst (fst (fst r))))) in E0; [done| |done].
    clear. intros [[[t w] low] z] b s' Hs E. cbn [fst snd] in *. unfold pass2_branch in E. obind E. destruct x as [[c g'] s1].
    destruct (_ =? _)%Z; [obind E; injection E as <-; cbn [fst snd]; eapply naT_tset_child; [..|eassumption]; done|].
    destruct (_ <? _)%Z; [obind E; injection E as <-; cbn [fst snd]; eapply naT_tset_child; [..|eassumption]; done|].
    destruct (_ && _); [|done]. by injection E as <-.
  Qed.

  Lemma na_sweep k t root t' root' : naT t -> sweep k t root = Some (t', root') -> naT t' /\ naf root'.
  Proof.
    intros Ht H. unfold sweep in H. obind H. destruct x as [t1 newId]. obind H. obind H. injection H as <- <-.
    assert (naT t1 /\ Forall (Forall naf) newId) as [H1 H2].
    { unfold sweep_rows in E. apply (ofold_pres _ (fun r => naT (fst r) /\ Forall (Forall naf) (snd r))) in E; [done| |].
      2:{ split; [done|]. apply Forall_replicate. constructor. }
      clear. intros [t ids] i [t' ids'] [H1 H2] E. cbn [fst snd] in *. obind E. obind E. destruct x0 as [kept ids1]. injection E as <- <-.
      unfold sweep_row in E1.
      assert (forall l s, (forall p, p ∈ l -> Forall naf p) -> Forall (Forall naf) (fst s) -> Forall naf (snd s) ->
        ofold (fun '(kept, ids0) p => q ← sweep_node k ids p; Some (if node_dead q then (kept, ids0 ++ [n0]) else (kept ++ [q], ids0 ++ [mk i (length kept)]))) l s = Some (kept, ids1) ->
        Forall (Forall naf) kept /\ Forall naf ids1) as Hr.
      { clear -H2. induction l as [|p l IH]; intros [kp id] Hl Hk Hi E; simpl in E; [by injection E as <- <-|].
        destruct (sweep_node k ids p) as [q|] eqn:Eq; [|done]. cbn [mbind option_bind] in E. eapply IH; [| | |exact E].
        - intros p' Hp'. apply Hl. by right.
        - destruct (node_dead q); [done|]. simpl in *. apply Forall_app. split; [done|]. constructor; [|done].
          unfold sweep_node in Eq. apply mapM_Some_1 in Eq. apply Forall_lookup. intros b g Hb.
          destruct (Forall2_lookup_r _ _ _ _ _ Eq Hb) as (f & Hf & Hfg). simpl in Hfg. destruct (_ <=? _).
          + obind Hfg. apply (Forall_lookup_1 _ _ _ _ (Forall_lookup_1 _ _ _ _ H2 E0) Hfg).
          + injection Hfg as <-. apply (Forall_lookup_1 _ _ _ _ (Hl p ltac:(left)) Hf).
        - destruct (node_dead q); simpl in *; apply Forall_app; split; try done; by constructor. }
      destruct (Hr x ([], [])) as [Hk Hi]; [|constructor|constructor|exact E1|].
      - intros p Hp. apply elem_of_list_lookup in Hp as [j Hj]. apply (Forall_lookup_1 _ _ _ _ (Forall_lookup_1 _ _ _ _ H1 E0) Hj).
      - split; by apply Forall_insert. }
    split; [done|]. apply (Forall_lookup_1 _ _ _ _ (Forall_lookup_1 _ _ _ _ H2 E0) E1).
  Qed.

  Lemma na_update sw t root i low dead sw' t' root' : naT t -> naf root ->
    update sw t root i low dead = Some (sw', t', root') -> naT t' /\ naf root'.
  Proof.
    intros Ht Hr H. unfold update in H. destruct (i <=? 1); [by injection H as <- <- <-|].
    destruct (if length (slev sw) <=? i then _ else _) as [sl0 dc0]. repeat obind H. destruct (_ <? _); [by injection H as <- <- <-|].
    obind H. destruct x6 as [t2 r2]. injection H as <- <- <-. by eapply na_sweep.
  Qed.

  Lemma na_construct i st st' : naT (out st) -> naf (broot st) ->
    construct a hashf eqbf nt ngr ch sched single i st = Some st' -> naT (out st') /\ naf (broot st').
  Proof.
    intros Ht Hr H. unfold construct in H. obind H. obind H. destruct x0 as [[idss m] tr].
    destruct (na_pass1 _ _ _ (out st, broot st) _ _ _ Ht Hr E0) as [H1 H2]. obind H. obind H. obind H. destruct x2 as [[[t2 w'] low] dead]. obind H. destruct x2 as [[sw' t3] root']. injection H as <-.
    cbn [out broot]. eapply na_update; [|exact H2|exact E4]. eapply (na_pass2 _ _ _ _ (t2, w', low, dead)); [|exact E3].
    unfold set_row in E2. obind E2. injection E2 as <-. apply Forall_insert; [done|]. apply Forall_app. split.
    - apply Forall_take. injection E1 as <-. apply (Forall_lookup_1 _ _ _ _ H1 E5).
    - apply Forall_replicate, Forall_replicate. done.
  Qed.

  Lemma na_init n : naT (init_table a n).
  Proof.
    constructor; [|apply Forall_replicate; constructor].
    constructor; [apply Forall_replicate; done|constructor; [apply Forall_replicate; done|constructor]].
  Qed.

  Lemma na_build n g s t root : build a hashf eqbf nt ngr ch sched single n g s = Some (t, root) -> naT t /\ naf root.
  Proof.
    unfold build. intros H. obind H. injection H as <- <-.
    apply (ofold_pres _ (fun st => naT (out st) /\ naf (broot st))) in E; [done| |split; [apply na_init|done]].
    intros st i st' [H1 H2] E1. by eapply na_construct.
  Qed.
End engine.

Definition unmarked (d : dd) : Prop := naT (tab d) /\ naf (rt d).
Lemma construct_unmarked sp d : construct_dd sp = Some d -> unmarked d.
Proof.
  unfold construct_dd. destruct (get_root sp) as [c s]. destruct (_ <=? _)%Z; intros H.
  - injection H as <-. split; [apply na_init|]. cbn [rt]. by destruct (_ =? _)%Z.
  - obind H. destruct x as [t root]. injection H as <-. by eapply na_build.
Qed.
Lemma construct_mp_unmarked sp threads tasks sched d : construct_mp sp threads tasks sched = Some d -> unmarked d.
Proof.
  unfold construct_mp. destruct (get_root sp) as [c s]. destruct (_ <=? _)%Z; intros H.
  - injection H as <-. split; [apply na_init|]. cbn [rt]. by destruct (_ =? _)%Z.
  - obind H. destruct x as [t root]. injection H as <-. by eapply na_build.
Qed.
Lemma subset_unmarked threads sched single shared d sp d' : zdd_subset_gen threads sched single shared d sp = Some d' -> unmarked d'.
Proof.
  unfold zdd_subset_gen. destruct (get_root sp) as [c s]. intros H. obind H. destruct x as [[f i] s']. destruct (_ <=? _)%Z.
  - injection H as <-. split; [apply na_init|]. cbn [rt]. by destruct (_ =? _)%Z.
  - obind H. destruct x as [t root]. injection H as <-. by eapply na_build.
Qed.
