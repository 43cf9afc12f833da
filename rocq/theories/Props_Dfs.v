(** C26: findOneInstance. *)
From Verif Require Import Base Sem Ex M_Dfs S_Path.
Local Open Scope Z_scope.

Section dfs.
Context (sp : spec) (rnd : nat -> nat) (Hok : spec_ok sp).

Lemma mod_cover (a b0 b : nat) : (b < a)%nat -> (b0 < a)%nat -> exists bb, (bb < a)%nat /\ ((b0 + bb) mod a)%nat = b.
Proof.
  intros Hb Hb0. destruct (le_lt_dec b0 b) as [H|H].
  - exists (b - b0)%nat. split; [lia|]. replace (b0 + (b - b0))%nat with b by lia. by apply Nat.mod_small.
  - exists (b + a - b0)%nat. split; [lia|]. replace (b0 + (b + a - b0))%nat with (b + 1 * a)%nat by lia.
    rewrite Nat.mod_add by lia. by apply Nat.mod_small.
Qed.

Lemma dfs_step_ok : forall fuel s i vl k, reach sp i s -> i <= Z.of_nat fuel -> 0 < i ->
  exists ok vl' k', dfs_step sp rnd fuel s i vl k = Some (ok, vl', k') /\
    if ok then exists p, vl' = vl ++ rev p /\ accepting sp i s p else vl' = vl /\ forall p, ~ accepting sp i s p.
Proof.
  induction fuel as [|fuel IH]; intros s i vl k Hr Hi Hp; [lia|]. cbn [dfs_step].
  pose proof (ok_arity _ Hok) as Ha. set (b0 := (rnd k mod ar sp)%nat). assert (b0 < ar sp)%nat as Hb0 by (apply Nat.mod_upper_bound; lia).
  assert (Hloop : forall todo bb k, (todo + bb = ar sp)%nat ->
    (forall bb' p, (bb' < bb)%nat -> ~ accepting sp (fst (get_child sp s i ((b0 + bb') mod ar sp)%nat)) (snd (get_child sp s i ((b0 + bb') mod ar sp)%nat)) p) ->
    exists ok vl' k', dfs_loop sp (dfs_step sp rnd fuel) s i b0 todo bb vl k = Some (ok, vl', k') /\
    if ok then exists p, vl' = vl ++ rev p /\ accepting sp i s p else vl' = vl /\ forall p, ~ accepting sp i s p).
  { induction todo as [|todo IHt]; intros bb k' Hbb Hno.
    - do 3 eexists. split; [reflexivity|]. split; [done|]. intros p Hacc. inversion Hacc as [|l' s'' b p' Hl Hb Hacc']; subst; [lia|].
      destruct (mod_cover (ar sp) b0 b Hb Hb0) as (bb' & Hbb' & <-). eapply (Hno bb'); [lia|done].
    - set (b := ((b0 + bb) mod ar sp)%nat). assert (b < ar sp)%nat as Hb by (apply Nat.mod_upper_bound; lia).
      assert (exists ok vl' k'', (let '(ii, s') := get_child sp s i b in
          if ii <=? 0 then Some (negb (ii =? 0), vl, k') else dfs_step sp rnd fuel s' ii vl k') = Some (ok, vl', k'') /\
        if ok then exists p, vl' = vl ++ rev p /\ accepting sp (fst (get_child sp s i b)) (snd (get_child sp s i b)) p
        else vl' = vl /\ forall p, ~ accepting sp (fst (get_child sp s i b)) (snd (get_child sp s i b)) p) as (ok & vl' & k'' & E & Hres).
      { pose proof (ok_level _ Hok i s b Hr Hb) as Hlev. pose proof (reach_child sp i s b Hr Hb) as Hrc.
        destruct (get_child sp s i b) as [ii s']. cbn [fst snd] in *. destruct (Z.leb_spec ii 0) as [H|H].
        - do 3 eexists. split; [reflexivity|]. destruct (Z.eqb_spec ii 0) as [->|Hn]; cbn [negb].
          + split; [done|]. intros p Hacc. inversion Hacc; lia.
          + exists []. cbn. rewrite app_nil_r. split; [done|]. constructor. lia.
        - apply IH; [by apply Hrc|lia|lia]. }
      cbn [dfs_loop]. fold b. destruct (get_child sp s i b) as [ii s'] eqn:Ec. rewrite E. cbn [mbind option_bind]. destruct ok.
      + do 3 eexists. split; [reflexivity|]. destruct Hres as (p & -> & Hacc). eexists ((i, _) :: p). cbn [rev]. rewrite app_assoc. split; [done|].
        constructor; [lia|done|]. by rewrite Ec.
      + destruct Hres as [-> Hnone]. apply IHt; [lia|]. intros bb' p Hbb'. destruct (decide (bb' = bb)) as [->|]; [fold b; rewrite Ec; apply Hnone|apply Hno; lia]. }
  apply Hloop; [lia|]. intros bb' p H. lia.
Qed.
End dfs.

(** Whatever rand() returns: the search ends; if it returns a list, then reading it backwards is a path from the root to
    the 1-terminal; if it throws, there is no such path. *)
Theorem C26_find_one : forall (sp : spec) (rnd : nat -> nat), spec_ok sp ->
  exists r, dfs_find sp rnd = Some r /\
  match r with
  | Some vl => accepting_path sp (rev vl)
  | None => forall p, ~ accepting_path sp p
  end.
Proof.
  intros sp rnd Hok. unfold dfs_find, accepting_path. destruct (get_root sp) as [n s] eqn:Er. cbn [fst snd].
  destruct (Z.leb_spec n 0) as [H|H]; cbn [mbind option_bind].
  - eexists. split; [reflexivity|]. destruct (Z.eqb_spec n 0) as [->|Hn]; cbn [negb].
    + intros p Hacc. inversion Hacc; lia.
    + constructor. lia.
  - assert (reach sp n s) as Hr. { replace n with (fst (get_root sp)) by by rewrite Er. replace s with (snd (get_root sp)) by by rewrite Er. constructor. by rewrite Er. }
    destruct (dfs_step_ok sp rnd Hok (Z.to_nat n) s n [] 0%nat Hr ltac:(lia) H) as (ok & vl & k & -> & Hres). cbn [mbind option_bind].
    eexists. split; [reflexivity|]. destruct ok; [|by apply Hres]. destruct Hres as (p & -> & Hacc). cbn [app]. by rewrite rev_involutive.
Qed.

(** Paths and members of the family. *)
Lemma acc_levels sp l s p : accepting sp l s p -> Forall (fun x => 0 < fst x) p.
Proof. induction 1; constructor; done. Qed.
Lemma vec_of_path_above p k : Forall (fun x => fst x < Z.of_nat k) p -> vec_of_path p k = 0%nat.
Proof. induction 1 as [|[l b] p H Hp IH]; [done|]. cbn [vec_of_path fst] in *. destruct (Z.eqb_spec (Z.of_nat k) l); [lia|done]. Qed.
Lemma zdd_eval_ext sp v w : forall n c s, (forall k, (1 <= k <= n)%nat -> v k = w k) -> zdd_eval sp n c s v = zdd_eval sp n c s w.
Proof.
  induction n as [|n IH]; intros c s H; [done|]. cbn [zdd_eval]. rewrite (H (S n)) by lia. cbv zeta.
  destruct (_ =? _); [apply IH; intros; apply H; lia|]. destruct (_ =? _)%nat; [|done]. apply IH; intros; apply H; lia.
Qed.
Lemma acc_zdd sp (Hok : spec_ok sp) : forall n l s p, accepting sp l s p -> (0 < l -> reach sp l s) -> l <= Z.of_nat n ->
  zdd_eval sp n l s (vec_of_path p) = true /\ Forall (fun x => fst x <= l) p.
Proof.
  induction n as [|n IH]; intros l s p Hacc Hr Hl; inversion Hacc as [l' s' H|l' s' b p' Hp Hb Hacc']; subst.
  - cbn. split; [by apply Z.ltb_lt|done].
  - lia.
  - cbn [zdd_eval]. destruct (Z.eqb_spec l (Z.of_nat (S n))); [lia|]. cbn [vec_of_path Nat.eqb]. split; [|done].
    apply (IH l s []); [done|lia|lia].
  - specialize (Hr Hp). pose proof (ok_level _ Hok l s b Hr Hb) as Hlev.
    destruct (Z.eq_dec l (Z.of_nat (S n))) as [->|Hne].
    + destruct (IH _ _ p' Hacc') as [He Hf]; [intros; by constructor|lia|]. cbn [zdd_eval]. rewrite Z.eqb_refl. cbn [vec_of_path]. rewrite Z.eqb_refl. cbv zeta. split.
      * rewrite <- He. apply zdd_eval_ext. intros k Hk. cbn [vec_of_path]. destruct (Z.eqb_spec (Z.of_nat k) (Z.of_nat (S n))); [lia|done].
      * constructor; [cbn; lia|]. eapply Forall_impl; [exact Hf|]. intros x Hx. cbn beta in *. lia.
    + destruct (IH l s _ Hacc) as [He Hf]; [done|lia|]. split; [|done]. cbn [zdd_eval]. destruct (Z.eqb_spec l (Z.of_nat (S n))); [lia|].
      rewrite vec_of_path_above; [done|]. eapply Forall_impl; [exact Hf|]. intros x Hx. cbn beta in *. lia.
Qed.
Lemma zdd_acc sp (Hok : spec_ok sp) v : vec_ok (ar sp) v -> forall n l s, (0 < l -> reach sp l s) -> l <= Z.of_nat n ->
  zdd_eval sp n l s v = true -> exists p, accepting sp l s p /\ forall k, (1 <= k <= n)%nat -> vec_of_path p k = v k.
Proof.
  intros Hv. induction n as [|n IH]; intros l s Hr Hl He.
  - exists []. cbn in He. apply Z.ltb_lt in He. split; [by constructor|lia].
  - cbn [zdd_eval] in He. destruct (Z.eqb_spec l (Z.of_nat (S n))) as [->|Hne]; cbv zeta in *.
    + specialize (Hr ltac:(lia)). pose proof (ok_level _ Hok _ s (v (S n)) Hr (Hv _)) as Hlev.
      destruct (IH (fst (get_child sp s (Z.of_nat (S n)) (v (S n)))) (snd (get_child sp s (Z.of_nat (S n)) (v (S n)))) ltac:(intros; by constructor) ltac:(lia) He) as (p & Hacc & Hp).
      exists ((Z.of_nat (S n), v (S n)) :: p). split; [constructor; [lia|apply Hv|done]|]. intros k Hk. cbn [vec_of_path].
      destruct (Z.eqb_spec (Z.of_nat k) (Z.of_nat (S n))) as [E|E]; [by assert (k = S n) as -> by lia|apply Hp; lia].
    + destruct (Nat.eqb_spec (v (S n)) 0) as [E0|]; [|done]. destruct (IH l s Hr ltac:(lia) He) as (p & Hacc & Hp). exists p. split; [done|].
      intros k Hk. destruct (decide (k = S n)) as [->|]; [|apply Hp; lia]. rewrite E0. apply vec_of_path_above.
      destruct (acc_zdd sp Hok (Z.to_nat l) l s p Hacc Hr ltac:(lia)) as [_ Hf]. eapply Forall_impl; [exact Hf|]. intros x Hx. cbn beta in *. lia.
Qed.

(** In terms of the family: the returned pairs, all other items 0, form a member; the exception is thrown exactly when the
    family has no member. *)
Theorem C26_member_or_empty : forall (sp : spec) (rnd : nat -> nat) (n : nat), spec_ok sp -> (top_level sp <= n)%nat ->
  exists r, dfs_find sp rnd = Some r /\
  match r with
  | Some vl => zdd_sem sp n (vec_of_path (rev vl)) = true /\ bdd_sem sp n (vec_of_path (rev vl)) = true
  | None => forall v, vec_ok (ar sp) v -> zdd_sem sp n v = false
  end.
Proof.
  intros sp rnd n Hok Hn. destruct (C26_find_one sp rnd Hok) as (r & -> & H). exists r. split; [done|]. unfold top_level in Hn.
  assert (0 < fst (get_root sp) -> reach sp (fst (get_root sp)) (snd (get_root sp))) as Hr by (intros; by constructor).
  destruct r as [vl|].
  - assert (forall w, zdd_sem sp n w = true -> bdd_sem sp n w = true) as Hzb.
    { intros w. unfold zdd_sem, bdd_sem. generalize (fst (get_root sp)) (snd (get_root sp)). clear. induction n as [|n IH]; intros l s; [done|].
      cbn [zdd_eval bdd_eval]. cbv zeta. destruct (_ =? _); [apply IH|]. destruct (_ =? _)%nat; [apply IH|done]. }
    assert (zdd_sem sp n (vec_of_path (rev vl)) = true) as Hz by (apply (acc_zdd sp Hok n _ _ _ H Hr); lia). split; [done|by apply Hzb].
  - intros v Hv. destruct (zdd_sem sp n v) eqn:E; [|done]. destruct (zdd_acc sp Hok v Hv n _ _ Hr ltac:(lia) E) as (p & Hp & _). by destruct (H p).
Qed.

(** combinations of 2 out of 4 with two different sequences of random numbers, and an empty family *)
Example C26_case :
  spec_ok (comb 4 2) /\ dfs_find (comb 4 2) (fun _ => 0%nat) = Some (Some [(1, 1%nat); (2, 1%nat); (3, 0%nat); (4, 0%nat)]) /\
  dfs_find (comb 4 2) (fun _ => 1%nat) = Some (Some [(1, 0%nat); (2, 0%nat); (3, 1%nat); (4, 1%nat)]) /\
  dfs_find (comb 2 3) (fun k => k) = Some None.
Proof. split; [apply comb_ok|]. split_and!; by vm_compute. Qed.

Print Assumptions C26_find_one.
Print Assumptions C26_member_or_empty.
