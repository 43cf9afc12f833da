(** Counting the vectors accepted by a decision tree. *)
From Verif Require Import Base Sem M_Table Tree S_Eval.
Local Open Scope nat_scope.

Definition Nsum (l : list N) : N := fold_right N.add 0%N l.

Lemma Nsum_app l k : Nsum (l ++ k) = (Nsum l + Nsum k)%N.
Proof. induction l as [|x l IH]; simpl; [done|]. rewrite IH. lia. Qed.

(** all vectors of length n over 0..a-1; the last entry is the one of the highest level *)
Fixpoint allv (a n : nat) : list (list nat) :=
  match n with
  | O => [[]]
  | S k => concat (map (fun b => map (fun l => l ++ [b]) (allv a k)) (seq 0 a))
  end.

Lemma allv_mem a n l : l ∈ allv a n <-> length l = n /\ Forall (fun x => x < a) l.
Proof.
  revert l. induction n as [|n IH]; intros l; cbn [allv].
  - rewrite elem_of_list_singleton. split; [intros ->; split; [done|constructor]|]. by intros [?%nil_length_inv _].
  - rewrite elem_of_list_In, in_concat. split.
    + intros (x & Hx & Hl). apply in_map_iff in Hx as (b & <- & Hb). apply in_seq in Hb.
      apply in_map_iff in Hl as (k & <- & Hk). apply elem_of_list_In, IH in Hk as [Hk1 Hk2].
      rewrite app_length, Nat.add_1_r. split; [congruence|]. apply Forall_app. split; [done|]. constructor; [lia|constructor].
    + intros [Hl Hf]. destruct (exists_last (l := l)) as (k & b & ->); [by intros ->|].
      apply Forall_app in Hf as [Hf Hb]. apply Forall_cons in Hb as [Hb _]. cbn beta in Hb. rewrite app_length, Nat.add_1_r in Hl.
      exists (map (fun l => l ++ [b]) (allv a n)). split.
      * apply in_map_iff. exists b. split; [done|]. apply in_seq. lia.
      * apply in_map_iff. exists k. split; [done|]. apply elem_of_list_In, IH. split; [lia|done].
Qed.

Lemma NoDup_concat_map {A B} (f : B -> list A) (l : list B) :
  NoDup l -> (forall b, b ∈ l -> NoDup (f b)) ->
  (forall b b' x, b ∈ l -> b' ∈ l -> x ∈ f b -> x ∈ f b' -> b = b') -> NoDup (concat (map f l)).
Proof.
  induction 1 as [|b l Hb Hl IH]; intros H1 H2; simpl; [constructor|].
  apply NoDup_app. split_and!.
  - apply H1. by left.
  - intros x Hx Hc. apply elem_of_list_In, in_concat in Hc as (y & Hy & Hxy). apply in_map_iff in Hy as (b' & <- & Hb').
    apply elem_of_list_In in Hb', Hxy. assert (b = b') as ->; [|done]. apply (H2 _ _ x); try done; [by left|by right].
  - apply IH; [intros; apply H1; by right|]. intros b1 b2 x ? ?. apply H2; by right.
Qed.

Lemma allv_NoDup a n : NoDup (allv a n).
Proof.
  induction n as [|n IH]; cbn [allv]; [by apply NoDup_singleton|].
  apply NoDup_concat_map; [apply NoDup_seq| |].
  - intros b _. apply NoDup_fmap_2; [|done]. intros x y E. by apply app_inj_tail in E as [? _].
  - intros b b' x _ _ Hx Hx'. apply elem_of_list_In, in_map_iff in Hx as (l & <- & _), Hx' as (l' & E & _).
    by apply app_inj_tail in E as [_ ?].
Qed.

Definition cnt (a n : nat) (f : list nat -> bool) : N := N.of_nat (length (List.filter f (allv a n))).

Lemma number_of_cnt a n P : number_of a n P (cnt a n (fun l => P (vec_of_list l))).
Proof.
  exists (List.filter (fun l => P (vec_of_list l)) (allv a n)). split_and!; [|done|].
  - apply NoDup_ListNoDup, List.NoDup_filter, NoDup_ListNoDup, allv_NoDup.
  - intros l. rewrite elem_of_list_In, filter_In, <- elem_of_list_In, allv_mem. tauto.
Qed.

Lemma number_of_unique a n P N N' : number_of a n P N -> number_of a n P N' -> N = N'.
Proof.
  intros (L & H1 & -> & H2) (L' & H1' & -> & H2'). f_equal. apply Permutation_length, NoDup_Permutation; try done.
  intros l. by rewrite H2, H2'.
Qed.

Lemma filter_ext_mem {A} (f g : A -> bool) l : (forall x, x ∈ l -> f x = g x) -> List.filter f l = List.filter g l.
Proof.
  induction l as [|x l IH]; intros H; [done|]. simpl. rewrite (H x) by (by left).
  rewrite IH by (intros; apply H; by right). done.
Qed.

Lemma cnt_ext a n f g : (forall l, length l = n -> Forall (fun x => x < a) l -> f l = g l) -> cnt a n f = cnt a n g.
Proof.
  intros H. unfold cnt. rewrite (filter_ext_mem f g); [done|]. intros l Hl. apply allv_mem in Hl as [? ?]. by apply H.
Qed.

Lemma cnt_S a n f : cnt a (S n) f = Nsum (map (fun b => cnt a n (fun l => f (l ++ [b]))) (seq 0 a)).
Proof.
  unfold cnt. cbn [allv]. generalize (seq 0 a). intros s. induction s as [|b s IH]; [done|].
  cbn [map concat Nsum fold_right]. rewrite List.filter_app, app_length, Nat2N.inj_add. f_equal; [|exact IH].
  f_equal. clear IH. induction (allv a n) as [|l k IHk]; [done|]. simpl. destruct (f (l ++ [b])); simpl; congruence.
Qed.

Lemma cnt_false a n : cnt a n (fun _ => false) = 0%N.
Proof. unfold cnt. by induction (allv a n). Qed.

Lemma tbdd_ext l T v v' : (forall k, 0 < k <= l -> v k = v' k) -> tbdd l T v = tbdd l T v'.
Proof.
  revert T. induction l as [|l IH]; intros T H; [done|]. cbn [tbdd]. rewrite (H (S l)) by lia.
  destruct T; [apply IH; intros; apply H; lia..|].
  destruct (_ =? _); apply IH; intros; apply H; lia.
Qed.
Lemma tzdd_ext l T v v' : (forall k, 0 < k <= l -> v k = v' k) -> tzdd l T v = tzdd l T v'.
Proof.
  revert T. induction l as [|l IH]; intros T H; [done|]. cbn [tzdd]. rewrite (H (S l)) by lia.
  assert (forall T, tzdd l T v = tzdd l T v') as E by (intros; apply IH; intros; apply H; lia).
  destruct T; rewrite ?E; [done|done|]. destruct (_ =? _); by rewrite ?E.
Qed.

Lemma vec_snoc_low l b k : 0 < k <= length l -> vec_of_list (l ++ [b]) k = vec_of_list l k.
Proof. intros H. unfold vec_of_list. rewrite app_nth1 by lia. done. Qed.
Lemma vec_snoc_top l b n : length l = n -> vec_of_list (l ++ [b]) (S n) = b.
Proof. intros <-. unfold vec_of_list. rewrite app_nth2 by lia. by replace (S (length l) - 1 - length l) with 0 by lia. Qed.

(** the two counting recursions *)
Fixpoint zcount (T : tree) : N :=
  match T with T0 => 0 | T1 => 1 | TN _ ts => Nsum (map zcount ts) end.
Fixpoint bcount (a : nat) (T : tree) : N :=
  match T with
  | T0 => 0 | T1 => 1
  | TN l ts => Nsum (map (fun t => N.of_nat a ^ N.of_nat (l - tlev t - 1) * bcount a t) ts)
  end%N.

Lemma map_nth_seq {A} (ts : list tree) (f : tree -> A) :
  map (fun b => f (nth b ts T0)) (seq 0 (length ts)) = map f ts.
Proof.
  induction ts as [|t ts IH] using rev_ind; [done|].
  rewrite app_length, Nat.add_1_r, seq_S, !map_app, Nat.add_0_l. f_equal.
  - rewrite <- IH. apply map_ext_in. intros b Hb. apply in_seq in Hb. rewrite app_nth1 by lia. done.
  - simpl. by rewrite app_nth2, Nat.sub_diag by lia.
Qed.

Lemma Nsum_const c k l : Nsum (map (fun _ : nat => c) (seq l k)) = (N.of_nat k * c)%N.
Proof. revert l. induction k as [|k IH]; intros l; [done|]. cbn [seq map Nsum fold_right]. fold (Nsum (map (fun _ : nat => c) (seq (S l) k))). rewrite IH. lia. Qed.

Lemma cnt_tzdd a n T : 0 < a -> tok a T -> tlev T <= n -> cnt a n (fun l => tzdd n T (vec_of_list l)) = zcount T.
Proof.
  intros Ha. revert T. induction n as [|n IH]; intros T Ht Hl.
  - inversion Ht; subst; simpl in *; [done|done|lia].
  - rewrite cnt_S. destruct (decide (tlev T = S n)) as [E|E].
    + destruct T as [| |k ts]; [done|done|]. simpl in E. subst k. inversion Ht; subst. cbn [zcount].
      rewrite <- (map_nth_seq ts zcount). f_equal. apply map_ext_in. intros b Hb. apply in_seq in Hb.
      rewrite <- (IH (nth b ts T0)).
      * apply cnt_ext. intros l Hll _. rewrite tzdd_node, vec_snoc_top by done. apply tzdd_ext.
        intros k Hk. apply vec_snoc_low. lia.
      * by eapply tok_child.
      * pose proof (tok_lev_child _ _ _ b Ht). lia.
    + assert (forall b l, length l = n -> tzdd (S n) T (vec_of_list (l ++ [b])) = if b =? 0 then tzdd n T (vec_of_list l) else false) as Hs.
      { intros b l Hll. rewrite tzdd_skip, vec_snoc_top by (done || lia). destruct (b =? 0); [|done].
        apply tzdd_ext. intros k Hk. apply vec_snoc_low. lia. }
      destruct a as [|a]; [lia|]. cbn [seq map Nsum fold_right].
      fold (Nsum (map (fun b => cnt (S a) n (fun l => tzdd (S n) T (vec_of_list (l ++ [b])))) (seq 1 a))).
      rewrite (cnt_ext _ n _ (fun l => tzdd n T (vec_of_list l))) by (intros l Hll _; cbv beta; by rewrite Hs).
      rewrite IH by (try done; lia).
      assert (Nsum (map (fun b => cnt (S a) n (fun l => tzdd (S n) T (vec_of_list (l ++ [b])))) (seq 1 a)) = 0%N) as ->; [|lia].
      rewrite <- (N.mul_0_r (N.of_nat a)), <- (Nsum_const 0 a 1). f_equal. apply map_ext_in. intros b Hb. apply in_seq in Hb.
      rewrite <- (cnt_false (S a) n). apply cnt_ext. intros l Hll _. rewrite Hs by done.
      destruct (Nat.eqb_spec b 0); [lia|done].
Qed.

Lemma cnt_tbdd a n T : 0 < a -> tok a T -> tlev T <= n ->
  cnt a n (fun l => tbdd n T (vec_of_list l)) = (N.of_nat a ^ N.of_nat (n - tlev T) * bcount a T)%N.
Proof.
  intros Ha. revert T. induction n as [|n IH]; intros T Ht Hl.
  - inversion Ht; subst; simpl in *; [done|done|lia].
  - rewrite cnt_S. destruct (decide (tlev T = S n)) as [E|E].
    + rewrite E, Nat.sub_diag. destruct T as [| |k ts]; [done|done|]. simpl in E. subst k. inversion Ht; subst.
      cbn [bcount]. change (N.of_nat 0) with 0%N. rewrite N.pow_0_r, N.mul_1_l.
      rewrite <- (map_nth_seq ts (fun t => N.of_nat (length ts) ^ N.of_nat (S n - tlev t - 1) * bcount (length ts) t)%N).
      f_equal. apply map_ext_in. intros b Hb. apply in_seq in Hb.
      pose proof (tok_lev_child _ _ _ b Ht).
      replace (S n - tlev (nth b ts T0) - 1) with (n - tlev (nth b ts T0)) by lia.
      rewrite <- (IH (nth b ts T0)); [|by eapply tok_child|lia].
      apply cnt_ext. intros l Hll _. rewrite tbdd_node, vec_snoc_top by done. apply tbdd_ext.
      intros k Hk. apply vec_snoc_low. lia.
    + rewrite (map_ext_in _ (fun _ => (N.of_nat a ^ N.of_nat (n - tlev T) * bcount a T)%N)).
      * rewrite Nsum_const. replace (S n - tlev T) with (S (n - tlev T)) by lia.
        rewrite (Nat2N.inj_succ (n - tlev T)), N.pow_succ_r'. lia.
      * intros b _. rewrite <- IH by (try done; lia). apply cnt_ext. intros l Hll _.
        rewrite tbdd_skip by lia. apply tbdd_ext. intros k Hk. apply vec_snoc_low. lia.
Qed.

Lemma Nsum_le (l : list N) c : Forall (fun x => x <= c)%N l -> (Nsum l <= N.of_nat (length l) * c)%N.
Proof. induction 1 as [|x l Hx Hl IH]; [done|]. cbn [Nsum fold_right length]. fold (Nsum l). lia. Qed.

Lemma pow_le_mono a i j : 0 < a -> i <= j -> (N.of_nat a ^ N.of_nat i <= N.of_nat a ^ N.of_nat j)%N.
Proof. intros. apply N.pow_le_mono_r; lia. Qed.

Lemma zcount_le a T : 0 < a -> tok a T -> (zcount T <= N.of_nat a ^ N.of_nat (tlev T))%N.
Proof.
  intros Ha. induction T as [| |l ts IH] using tree_ind'; intros Ht; [done|done|].
  inversion Ht as [| |? ? Hl Hlen HF HL]; subst l0 ts0. cbn [zcount tlev].
  etrans; [apply (Nsum_le _ (N.of_nat a ^ N.of_nat (l - 1)))|].
  - apply Forall_map. rewrite Forall_forall in *. intros t Hin. etrans; [apply IH; auto|].
    apply pow_le_mono; [done|]. specialize (HL t Hin). lia.
  - rewrite map_length, Hlen. replace l with (S (l - 1)) at 2 by lia. rewrite Nat2N.inj_succ, N.pow_succ_r'. done.
Qed.
Lemma bcount_le a T : 0 < a -> tok a T -> (bcount a T <= N.of_nat a ^ N.of_nat (tlev T))%N.
Proof.
  intros Ha. induction T as [| |l ts IH] using tree_ind'; intros Ht; [done|done|].
  inversion Ht as [| |? ? Hl Hlen HF HL]; subst l0 ts0. cbn [bcount tlev].
  etrans; [apply (Nsum_le _ (N.of_nat a ^ N.of_nat (l - 1)))|].
  - apply Forall_map. rewrite Forall_forall in *. intros t Hin. specialize (HL t Hin). specialize (IH t Hin (HF t Hin)).
    replace (l - 1) with ((l - tlev t - 1) + tlev t) by lia. rewrite Nat2N.inj_add, N.pow_add_r.
    apply N.mul_le_mono_l. exact IH.
  - rewrite map_length, Hlen. replace l with (S (l - 1)) at 2 by lia. rewrite Nat2N.inj_succ, N.pow_succ_r'. done.
Qed.
