(** NumlinZdd: from the steps to the set of solutions. *)
From stdpp Require Import strings.
From Verif Require Import Base Sem M_Graph S_Simpath P_Simpath1 P_Simpath2 P_Simpath3 P_Numlin1 M_Numlin S_Numlin P_Numlin2 P_Numlin3 P_Numlin4.
Local Open Scope nat_scope.

(** facts that do not depend on the choice of links *)
Section ext.
Context (b : board) (Hn2 : 2 <= b_cols b) (H H' : nat -> nat -> bool) (i k : nat).
Context (Hag : forall a c, bef i k a c -> H a c = H' a c).
Lemma lf_ext a c : bef i k a c -> lf H a c = lf H' a c.
Proof. intros Hbf. unfold lf. destruct (Nat.leb_spec 1 c); [|done]. cbn [andb]. apply Hag. unfold bef in *. lia. Qed.
Lemma rt_ext a c : bef i k a c -> rt b H a c = rt b H' a c.
Proof. intros Hbf. unfold rt. f_equal. by apply Hag. Qed.
Lemma vdn_ext : forall a c, bef i k a c -> vdn b H a c = vdn b H' a c.
Proof.
  induction a as [|a IH]; intros c Hbf; rewrite !vdn_eq, lf_ext, rt_ext by done; [done|]. unfold up. cbn [Nat.leb andb]. replace (S a - 1) with a by lia.
  rewrite IH; [done|]. unfold bef in *. lia.
Qed.
Lemma cnt_ext : k <= b_cols b -> cnt b H i k = cnt b H' i k.
Proof.
  intros Hk. unfold cnt. assert (forall l : list (nat * nat), (forall p, p ∈ l -> bef i k (fst p) (snd p)) -> filter (fun p => blankb b H p = true) l = filter (fun p => blankb b H' p = true) l) as HF.
  { induction l as [|[a c] l IH]; intros Hl; [done|]. rewrite !filter_cons. assert (blankb b H (a, c) = blankb b H' (a, c)) as EB.
    { pose proof (Hl (a, c) (elem_of_list_here _ _)) as Hbf. cbn [fst snd] in Hbf. unfold blankb. rewrite lf_ext, rt_ext by done. unfold up. destruct (Nat.leb_spec 1 a); [|done]. cbn [andb].
      rewrite vdn_ext; [done|]. unfold bef in *. lia. }
    rewrite IH by (intros p Hp; apply Hl; by right). rewrite EB. done. }
  rewrite HF; [done|]. intros [a c] Hin. apply before_in in Hin as [_ Hin]; done.
Qed.
End ext.

Section fin.
Context (q : numlin).
Notation b := (nl_quiz q).
Notation m := (b_rows b).
Notation n := (b_cols b).
Context (Hb : board_ok b) (Hn2 : 2 <= n) (Hsmall : forall i k t, b_num b i k = Some t -> (Z.of_nat n + t <= 255)%Z) (Hmax : (nl_max q <= 65535)%Z).
Notation top := (m * (n - 1)).

Lemma R_ext H H' i k : (forall a c, bef i k a c -> H a c = H' a c) -> forall x y, R q H i k k x y <-> R q H' i k k x y.
Proof.
  intros Hag. apply rel_iff; intros a c _ _; split; intros [Hbf E]; (split; [done|]).
  - by rewrite <- Hag.
  - by rewrite Hag.
  - by rewrite <- (vdn_ext b Hn2 H H' i k Hag).
  - by rewrite (vdn_ext b Hn2 H H' i k Hag).
Qed.
Lemma Inv_ext H H' i k s : (forall a c, bef i k a c -> H a c = H' a c) -> k <= n -> Inv q H i k k s -> Inv q H' i k k s.
Proof.
  intros Hag Hk [(P & [C1 C2 C3 C4 C5]) HB]. split.
  - exists P. constructor; [|done|done|done|done]. eapply conf_ext; [|exact C1]. intros x y. by apply R_ext.
  - unfold blk in *. by rewrite <- (cnt_ext b Hn2 H H' i k Hag Hk).
Qed.

Section one.
Context (H : nat -> nat -> bool).
Lemma row_wrap i s : Inv q H i n n s -> Inv q H (S i) 0 0 s.
Proof.
  intros [(P & [C1 C2 C3 C4 C5]) HB]. assert (forall c, c < n -> fr q i n c = fr q (S i) 0 c) as EF.
  { intros c Hc. unfold fr. rewrite (proj2 (Nat.ltb_lt _ _) Hc). by rewrite (proj2 (Nat.ltb_ge _ _)) by lia. }
  split.
  - exists P. constructor.
    + eapply conf_ext; [|exact C1]. apply rel_iff; intros a c Ha Hc; unfold bef; split; intros [? ?]; (split; [lia|done]).
    + intros x Hx. apply C2. by rewrite vid_n.
    + intros x w Hx. apply C3. by rewrite vid_n.
    + done.
    + intros c Hc. destruct (C5 c Hc) as (a & Ea & A). exists a. split; [done|]. rewrite <- EF by done. destruct A as [A|(w & Hl & Hw)]; [by left|right].
      exists w. split; [done|]. destruct Hw as [[Ha ->]|Hw]; [left|by right]. split; [done|]. by rewrite EF.
  - unfold blk in *. by rewrite <- cnt_row.
Qed.

Lemma mapM_total {A B} (f : A -> option B) (g : A -> B) l : (forall x, x ∈ l -> f x = Some (g x)) -> mapM f l = Some (map g l).
Proof.
  induction l as [|x l IH]; intros Hf; [done|]. cbn [mapM]. rewrite (Hf x) by left. cbn [mbind option_bind]. rewrite IH by (intros y Hy; apply Hf; by right). done.
Qed.
Lemma root_inv : exists s, nl_root q = Some (Z.of_nat top, s) /\ Inv q H 0 0 0 s.
Proof.
  pose proof (proj1 Hb) as Hm1. unfold nl_root. change (nl_n q) with n.
  rewrite (mapM_total _ (fresh q 0)).
  2: { intros j Hj. apply elem_of_seq in Hj. destruct (fresh_ok q Hb Hn2 Hsmall 0 j) as (t & Et & _ & _ & _ & Ef); [lia|lia|]. rewrite Et. cbn [mbind option_bind]. by rewrite Ef. }
  cbn [mbind option_bind]. eexists. split; [unfold nl_top, nl_m, nl_n; repeat f_equal; nia|]. split.
  - eexists. constructor.
    + eapply conf_ext; [|apply conf_init]. intros x y. split; [done|]. intros (a & c & [([Hbf _] & _)|([Hbf _] & _)]); unfold bef in Hbf; lia.
    + cbn [snd]. intros x Hx. exists x. split; [done|]. pose proof (vid_S b 0 0). unfold vid in *. lia.
    + intros x w Hx Hl. exfalso. apply (live_range _ _ _ _ (conf_init (mm b) (colr b))) in Hl. unfold vid in Hx. lia.
    + cbn [snd]. by rewrite map_length, seq_length.
    + cbn [snd]. intros c Hc. exists (fresh q 0 c). split; [rewrite list_lookup_fmap, lookup_seq_lt by done; done|]. right. exists (endv (colr b) (vid b 0 c)).
      assert (fr q 0 0 c = vid b 0 c) as EF by (unfold fr; by rewrite (proj2 (Nat.ltb_ge _ _)) by lia). rewrite EF. split.
      * apply live_single. exists (vid b 0 c). split; [done|]. apply vid_range; lia.
      * unfold enc, endv, fresh. rewrite vid_col by done. destruct (Nat.ltb_spec 0 (num b 0 c)), (Nat.eqb_spec (num b 0 c) 0); try lia.
  - unfold blk. cbn [fst]. assert (cnt b H 0 0 = 0) as -> by done. split; [by destruct (0 <? nl_max q)%Z|done].
Qed.
Lemma end_inv s : Inv q H m 0 0 s -> good q H.
Proof.
  intros [(P & HI) [_ HB]]. split; [|done]. eapply pathgood_ext; [|apply (settled_good (mm b) (colr b) (colr_out b Hb) P _ (co_conf _ _ _ _ _ _ _ HI))].
  - intros x y. apply rel_iff; intros a c Ha Hc; unfold bef; (split; [tauto|intros ?; split; [lia|done]]).
  - intros x w Hl. apply (co_old _ _ _ _ _ _ _ HI); [|done]. apply (live_range _ _ _ _ (co_conf _ _ _ _ _ _ _ HI)) in Hl. pose proof (vid_out b m 0 (le_n _)). lia.
Qed.

(** one cell: the horizontal link, then the closing *)
Lemma cell_step i k s : Inv q H i (S k) k s -> i < m -> k < n ->
  exists r, (if S i <? m then nl_close q i k s else nl_bottom q k s) = Some r /\ match r with Some s' => Inv q H i (S k) (S k) s' | None => ~ good q H end.
Proof.
  intros HI Hi Hk. destruct (Nat.ltb_spec (S i) m) as [Hm|Hm].
  - by apply close_step.
  - apply bottom_step; [done|done|done|done|done|lia|done].
Qed.
Lemma skip_inv i k s : H i k = false \/ n <= S k -> Inv q H i k k s -> Inv q H i (S k) k s.
Proof. intros Hh [(P & HI) HB]. split; [|done]. exists P. eapply core_ext; [|exact HI]. by apply R_h_skip. Qed.

Definition InvAt (t : nat) (s : nl_state) : Prop := Inv q H (t / (n - 1)) (t mod (n - 1)) (t mod (n - 1)) s.
Lemma InvAt_eq t i k s : k < n - 1 -> t = i * (n - 1) + k -> InvAt t s <-> Inv q H i k k s.
Proof.
  intros Hk ->. unfold InvAt. assert ((i * (n - 1) + k) / (n - 1) = i) as -> by (symmetry; apply (Nat.div_unique _ _ _ k); lia).
  by assert ((i * (n - 1) + k) mod (n - 1) = k) as -> by (symmetry; apply (Nat.mod_unique _ _ i); lia).
Qed.

Lemma cuts_if {A S} (c : bool) (f g : S -> A -> option (option S)) l s : (if c then cuts f l s else cuts g l s) = cuts (fun s x => if c then f s x else g s x) l s.
Proof. by destruct c. Qed.
Lemma child_step t s : t < top -> InvAt t s ->
  exists r, nl_child q s (Z.of_nat (top - t)) (H (t / (n - 1)) (t mod (n - 1))) = Some r /\
    ((fst r = 0%Z /\ ~ good q H) \/ (fst r = (if (1 <=? Z.of_nat (top - t) - 1)%Z then (Z.of_nat (top - t) - 1)%Z else (-1)%Z) /\ InvAt (S t) (snd r))).
Proof.
  intros Ht HI. unfold InvAt in HI. set (i := t / (n - 1)) in *. set (j := t mod (n - 1)) in *.
  assert (Hj : j < n - 1) by (apply Nat.mod_upper_bound; lia). assert (Et : t = i * (n - 1) + j) by (rewrite (Nat.div_mod t (n - 1)) at 1 by lia; unfold i, j; lia).
  assert (Hi : i < m) by nia. clearbody i j.
  unfold nl_child. change (nl_n q) with n. change (nl_m q) with m.
  assert (nl_top q - Z.of_nat (top - t) = Z.of_nat t)%Z as -> by (unfold nl_top, nl_m, nl_n; nia).
  replace (Z.of_nat n - 1)%Z with (Z.of_nat (n - 1)) by lia. rewrite <- Nat2Z.inj_div, <- Nat2Z.inj_mod, !Nat2Z.id.
  assert (t / (n - 1) = i) as -> by (symmetry; apply (Nat.div_unique _ _ _ j); lia).
  assert (t mod (n - 1) = j) as -> by (symmetry; apply (Nat.mod_unique _ _ i); lia).
  assert (exists r, (if H i j then nl_take n j (snd s) else Some (Some (snd s))) = Some r /\ match r with Some M => Inv q H i (S j) j (fst s, M) | None => ~ good q H end) as (r & Er & Hr).
  { destruct (H i j) eqn:EH.
    - destruct HI as [(P & HI) HB]. destruct (take_step q Hb Hn2 Hsmall H P i j (snd s) HI Hi ltac:(lia) EH) as (r & Er & Hr). exists r. split; [done|]. destruct r as [M|].
      + by split.
      + by intros [? _].
    - exists (Some (snd s)). split; [done|]. destruct s as [bl M]. apply skip_inv; [by left|done]. }
  rewrite Er. cbn [mbind option_bind]. destruct r as [M|]; [|eexists; split; [done|by left]].
  rewrite cuts_if. destruct (cell_step i j _ Hr Hi ltac:(lia)) as (r1 & E1 & H1).
  destruct (Nat.ltb_spec (S (S j)) n) as [Hlast|Hlast].
  - replace (S j - j) with 1 by lia. cbn [seq cuts]. rewrite E1. cbn [mbind option_bind]. destruct r1 as [s1|]; [|eexists; split; [done|by left]].
    cbn [mbind option_bind]. eexists. split; [done|]. right. split; [done|]. cbn [snd]. apply (InvAt_eq _ i (S j)); [lia|lia|done].
  - replace (S (n - 1) - j) with 2 by lia. cbn [seq cuts]. rewrite E1. cbn [mbind option_bind]. destruct r1 as [s1|]; [|eexists; split; [done|by left]].
    destruct (cell_step i (S j) s1) as (r2 & E2 & H2); [apply skip_inv; [right; lia|done]|done|lia|].
    rewrite E2. cbn [mbind option_bind]. destruct r2 as [s2|]; [|eexists; split; [done|by left]].
    cbn [mbind option_bind]. eexists. split; [done|]. right. split; [done|]. cbn [snd]. apply (InvAt_eq _ (S i) 0); [lia|lia|]. apply row_wrap. by replace n with (S (S j)) by lia.
Qed.
End one.

(** ** the set *)
Lemma eval_zero v : forall l s, zdd_eval (nl_spec q) l 0%Z s v = false.
Proof. induction l as [|l IH]; intros s; cbn [zdd_eval]; [done|]. destruct (Z.eqb_spec 0 (Z.of_nat (S l))); [lia|]. rewrite IH. by destruct (v (S l) =? 0). Qed.
Lemma eval_sem v : let H := links_of_vec b v in forall r t s, t + r = top -> 0 < r -> InvAt H t s ->
  zdd_eval (nl_spec q) r (Z.of_nat r) s v = true <-> good q H.
Proof.
  intros H. induction r as [|r IH]; intros t s Htr Hr HI; [lia|]. cbn [zdd_eval]. rewrite Z.eqb_refl.
  destruct (child_step H t s ltac:(lia) HI) as (r' & Er & Hr').
  assert (top - t = S r) as Et by lia. rewrite Et in *.
  cbn [nl_spec get_child]. assert (negb (v (S r) =? 0) = H (t / (n - 1)) (t mod (n - 1))) as ->.
  { unfold H, links_of_vec. f_equal. f_equal. f_equal. rewrite (Nat.div_mod t (n - 1)) in Htr by lia. nia. }
  rewrite Er. unfold default, id. cbn zeta. destruct r' as [c' s']. cbn [fst snd] in *. destruct Hr' as [[-> Hng]|[-> HI']].
  - rewrite eval_zero. split; [done|]. intros HG. by apply Hng in HG.
  - destruct (Z.leb_spec 1 (Z.of_nat (S r) - 1)).
    + replace (Z.of_nat (S r) - 1)%Z with (Z.of_nat r) by lia. apply (IH (S t)); [lia|lia|done].
    + assert (r = 0) as -> by lia. cbn [zdd_eval]. split; [|done]. intros _. eapply end_inv. apply (proj1 (InvAt_eq H (S t) m 0 _ ltac:(lia) ltac:(lia)) HI').
Qed.
Lemma sem_good v : zdd_sem (nl_spec q) top v = true <-> good q (links_of_vec b v).
Proof.
  destruct (root_inv (links_of_vec b v)) as (s & Es & HI). unfold zdd_sem. cbn [nl_spec get_root]. fold (nl_spec q). rewrite Es. unfold default, id. cbn [fst snd].
  assert (0 < top) as Ht by (destruct Hb; nia). apply (eval_sem v top 0); [lia|done|]. by apply (InvAt_eq _ 0 0 0); [lia|lia|].
Qed.
Lemma good_solution H : good q H <-> exists V, solution b H V /\ blanks_at_most b H V (nl_max q).
Proof.
  unfold good, few. split.
  - intros [HG HF]. exists (vdn b H). split; [by apply sol_good|by apply blanks_iff].
  - intros (V & HS & HB). assert (forall i k, S i < m -> k < n -> V i k = vdn b H i k) as EV by (apply vdn_of; [done|done|by apply sol_degrees]).
    split; [apply sol_good; [done|done|]; by eapply sol_ext|]. apply (proj1 (blanks_iff b Hb Hn2 H (nl_max q))).
    intros Hk cs Hnd Hcs. apply HB; [done|done|]. intros c Hc. destruct (Hcs c Hc) as [Hon [Hn Hl]]. split; [done|]. split; [done|]. intros d Hd. apply (Hl d).
    by apply (linked_ext b Hn2 H V (vdn b H) c d EV).
Qed.

(** ** what can be reached *)
Lemma nl_reach l s : reach (nl_spec q) l s -> exists t H, t < top /\ l = Z.of_nat (top - t) /\ InvAt H t s.
Proof.
  induction 1 as [Hp|l s k Hr (t & H & Ht & -> & HI) Hk Hp].
  - destruct (root_inv (fun _ _ => false)) as (s & Es & HI). cbn [nl_spec get_root] in *. rewrite Es in *. unfold default, id in *. cbn [fst snd] in *.
    exists 0, (fun _ _ => false). split; [lia|]. split; [f_equal; lia|]. by apply (InvAt_eq _ 0 0 0); [lia|lia|].
  - cbn [nl_spec get_child] in *. set (take := negb (k =? 0)) in *.
    set (H' := fun a c => if (a =? t / (n - 1)) && (c =? t mod (n - 1)) then take else H a c).
    assert (HI' : InvAt H' t s).
    { unfold InvAt in *. eapply Inv_ext; [|pose proof (Nat.mod_upper_bound t (n - 1)); lia|exact HI]. intros a c Hbf. unfold H'.
      destruct (Nat.eqb_spec a (t / (n - 1))) as [Ea|Ea], (Nat.eqb_spec c (t mod (n - 1))) as [Ec|Ec]; cbn [andb]; try done. unfold bef in Hbf. lia. }
    destruct (child_step H' t s Ht HI') as (r & Er & Hr'). assert (H' (t / (n - 1)) (t mod (n - 1)) = take) as ET by (unfold H'; by rewrite !Nat.eqb_refl).
    rewrite ET in Er. rewrite Er in *. unfold default, id in *. destruct r as [c' s']. cbn [fst snd] in *. destruct Hr' as [[E0 _]|[E0 HI2]]; [lia|].
    exists (S t), H'. rewrite E0 in Hp. destruct (Z.leb_spec 1 (Z.of_nat (top - t) - 1)); [|lia]. split; [lia|]. split; [rewrite E0; lia|done].
Qed.
Lemma nl_facts l s take : reach (nl_spec q) l s -> exists r, nl_child q s l take = Some r /\ (-1 <= fst r < l)%Z.
Proof.
  intros (t & H & Ht & -> & HI)%nl_reach. 
  set (H' := fun a c => if (a =? t / (n - 1)) && (c =? t mod (n - 1)) then take else H a c).
  assert (HI' : InvAt H' t s).
  { unfold InvAt in *. eapply Inv_ext; [|pose proof (Nat.mod_upper_bound t (n - 1)); lia|exact HI]. intros a c Hbf. unfold H'.
    destruct (Nat.eqb_spec a (t / (n - 1))) as [Ea|Ea], (Nat.eqb_spec c (t mod (n - 1))) as [Ec|Ec]; cbn [andb]; try done. unfold bef in Hbf. lia. }
  destruct (child_step H' t s Ht HI') as (r & Er & Hr'). assert (H' (t / (n - 1)) (t mod (n - 1)) = take) as ET by (unfold H'; by rewrite !Nat.eqb_refl).
  rewrite ET in Er. exists r. split; [done|]. destruct Hr' as [[-> _]|[-> _]]; [lia|]. destruct (Z.leb_spec 1 (Z.of_nat (top - t) - 1)); lia.
Qed.
End fin.
