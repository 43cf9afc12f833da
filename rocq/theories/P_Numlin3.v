(** Solutions of a Numberlink puzzle as path systems; the vertical links follow from the horizontal ones. *)
From stdpp Require Import strings.
From Verif Require Import Base Sem M_Graph S_Simpath P_Simpath1 P_Simpath2 P_Simpath3 P_Numlin1 M_Numlin S_Numlin P_Numlin2.
Local Open Scope nat_scope.

Section sol.
Context (b : board) (Hb : board_ok b) (Hn2 : 2 <= b_cols b) (H : nat -> nat -> bool).
Notation m := (b_rows b).
Notation n := (b_cols b).
Notation vid := (vid b).
Notation num := (num b).
Notation lf := (lf H).
Notation rt := (rt b H).
Notation dn := (dn b).

Definition ed (V : nat -> nat -> bool) : nat -> nat -> Prop := rel b (fun a c => H a c = true) (fun a c => V a c = true).
Definition cv (c : nat * nat) : nat := vid (fst c) (snd c).

Section one.
Context (V : nat -> nat -> bool).
Notation E := (ed V).
Notation lk := (linked b H V).
Lemma ed_four a c y : a < m -> c < n -> E (vid a c) y <-> four b (lf a c) (rt a c) (up V a c) (dn V a c) a c y.
Proof.
  intros Ha Hc. unfold ed. rewrite rel_nbr by done. unfold nbrs, four, P_Numlin2.lf, P_Numlin2.rt, up, P_Numlin2.dn. rewrite !andb_true_iff, !Nat.leb_le, !Nat.ltb_lt. tauto.
Qed.
Lemma ed_sym x y : E x y -> E y x.
Proof. intros (a & c & [(? & ? & ? & ?)|(? & ? & ? & ?)]); exists a, c; [left|right]; tauto. Qed.
Lemma cv_inj c d : on_board b c -> on_board b d -> cv c = cv d -> c = d.
Proof. destruct c as [i k], d as [i' k']. intros [_ Hc] [_ Hd] E. cbn in Hc, Hd. unfold cv in E. cbn [fst snd] in E. apply vid_inj in E as [-> ->]; done. Qed.
Lemma cell_of x : 1 <= x <= mm b -> exists c, on_board b c /\ x = cv c.
Proof. intros Hx. destruct (vid_cover b Hb x Hx) as (i & k & Hi & Hk & ->). by exists (i, k). Qed.
Lemma cv_range c : on_board b c -> 1 <= cv c <= mm b.
Proof. intros [Hi Hk]. by apply vid_range. Qed.
Lemma cv_col c : on_board b c -> colr b (cv c) = number b c.
Proof. intros [_ Hk]. unfold cv. rewrite vid_col by done. unfold P_Numlin2.num. by destruct c. Qed.
Lemma lk_ed c d : lk c d <-> on_board b c /\ on_board b d /\ E (cv c) (cv d).
Proof.
  unfold linked. split; intros (Hc & Hd & Hl); (split; [done|]); (split; [done|]).
  - destruct Hc as [Hi Hk], Hd as [Hi' Hk'], Hl as [[-> Hh]|[[-> Hh]|[[-> Hh]|[-> Hh]]]]; cbn [fst snd] in *.
    + exists (fst c), (snd c). left. split; [done|]. split; [done|]. split; [done|]. by left.
    + exists (fst d), (snd d). left. split; [done|]. split; [done|]. split; [done|]. by right.
    + exists (fst c), (snd c). right. split; [done|]. split; [done|]. split; [done|]. by left.
    + exists (fst d), (snd d). right. split; [done|]. split; [done|]. split; [done|]. by right.
  - destruct Hl as (i & k & [(Hh & Hi & Hk & [[E1 E2]|[E1 E2]])|(Hh & Hi & Hk & [[E1 E2]|[E1 E2]])]).
    + apply (cv_inj c (i, k)) in E1; [|done|split; cbn; lia]. apply (cv_inj d (i, S k)) in E2; [|done|split; cbn; lia]. subst. left. done.
    + apply (cv_inj d (i, k)) in E1; [|done|split; cbn; lia]. apply (cv_inj c (i, S k)) in E2; [|done|split; cbn; lia]. subst. right; left. done.
    + apply (cv_inj c (i, k)) in E1; [|done|split; cbn; lia]. apply (cv_inj d (S i, k)) in E2; [|done|split; cbn; lia]. subst. right; right; left. done.
    + apply (cv_inj d (i, k)) in E1; [|done|split; cbn; lia]. apply (cv_inj c (S i, k)) in E2; [|done|split; cbn; lia]. subst. right; right; right. done.
Qed.
Lemma ed_cells x y : E x y -> exists c d, x = cv c /\ y = cv d /\ lk c d.
Proof.
  intros He. destruct (rel_range _ _ _ _ _ He) as [Hx Hy]. destruct (cell_of x Hx) as (c & Hc & ->). destruct (cell_of y Hy) as (d & Hd & ->).
  exists c, d. split; [done|]. split; [done|]. by apply lk_ed.
Qed.
Lemma ed_cell c y : on_board b c -> E (cv c) y -> exists d, y = cv d /\ lk c d.
Proof.
  intros Hc He. destruct (rel_range _ _ _ _ _ He) as [_ Hy]. destruct (cell_of y Hy) as (d & Hd & ->). exists d. split; [done|]. by apply lk_ed.
Qed.
Lemma lk_on c d : lk c d -> on_board b c /\ on_board b d.
Proof. intros (? & ? & _). done. Qed.

(** partners and edges *)
Lemma part1 c : on_board b c -> (exists d, partners b H V c [d]) <-> exists z, forall y, E (cv c) y <-> y = z.
Proof.
  intros Hc. split.
  - intros (d & _ & Hd). exists (cv d). intros y. split.
    + intros He. destruct (ed_cell c y Hc He) as (e & -> & Hl). apply Hd, elem_of_list_singleton in Hl as ->. done.
    + intros ->. assert (lk c d) as Hl by (apply Hd; set_solver). by apply lk_ed.
  - intros (z & Hz). destruct (ed_cell c z Hc) as (d & -> & Hl); [by apply Hz|]. exists d. split; [apply NoDup_singleton|]. intros e. rewrite elem_of_list_singleton. split.
    + intros He. apply (cv_inj e d); [by apply (lk_on c)|by apply (lk_on c)|]. apply Hz. by apply lk_ed.
    + intros ->. done.
Qed.
Lemma part2 c : on_board b c -> (exists d e, partners b H V c [d; e]) <-> exists z z', z <> z' /\ forall y, E (cv c) y <-> y = z \/ y = z'.
Proof.
  intros Hc. split.
  - intros (d & e & Hnd & Hd). assert (lk c d) as L1 by (apply Hd; set_solver). assert (lk c e) as L2 by (apply Hd; set_solver).
    exists (cv d), (cv e). split.
    + intros Ec. apply cv_inj in Ec as ->; [|by apply (lk_on c)|by apply (lk_on c)]. apply NoDup_cons in Hnd as [Hnd _]. set_solver.
    + intros y. split.
      * intros He. destruct (ed_cell c y Hc He) as (f & -> & Hl). apply Hd in Hl. apply elem_of_cons in Hl as [->|Hl%elem_of_list_singleton]; [by left|subst; by right].
      * intros [->| ->]; by apply lk_ed.
  - intros (z & z' & Hzz & Hz). destruct (ed_cell c z Hc) as (d & -> & L1); [apply Hz; tauto|]. destruct (ed_cell c z' Hc) as (e & -> & L2); [apply Hz; tauto|].
    exists d, e. split; [|].
    + apply NoDup_cons. split; [|apply NoDup_singleton]. intros ->%elem_of_list_singleton. done.
    + intros f. split.
      * intros Hf. assert (cv f = cv d \/ cv f = cv e) as [Ef|Ef] by (apply Hz; by apply lk_ed).
        -- apply cv_inj in Ef as ->; [set_solver|by apply (lk_on c)|by apply (lk_on c)].
        -- apply cv_inj in Ef as ->; [set_solver|by apply (lk_on c)|by apply (lk_on c)].
      * intros [->| ->%elem_of_list_singleton]%elem_of_cons; done.
Qed.
Lemma part0 c : on_board b c -> (forall d, ~ lk c d) <-> forall y, ~ E (cv c) y.
Proof.
  intros Hc. split.
  - intros Hn y He. destruct (ed_cell c y Hc He) as (d & -> & Hl). by apply (Hn d).
  - intros Hn d Hl. apply (Hn (cv d)). by apply lk_ed.
Qed.
Definition cnt4 (a c : nat) : nat := b2n (lf a c) + b2n (rt a c) + b2n (up V a c) + b2n (dn V a c).
Lemma ed_count a c : a < m -> c < n ->
  ((forall d, ~ lk (a, c) d) <-> cnt4 a c = 0) /\ ((exists d, partners b H V (a, c) [d]) <-> cnt4 a c = 1) /\
  ((exists d e, partners b H V (a, c) [d; e]) <-> cnt4 a c = 2).
Proof.
  intros Ha Hc. assert (on_board b (a, c)) as Hon by done. rewrite part0, part1, part2 by done. eapply (four_count b); [done|exact Ha|exact Hc|..].
  - unfold P_Numlin2.lf. rewrite andb_true_iff, Nat.leb_le. tauto.
  - unfold up. rewrite andb_true_iff, Nat.leb_le. tauto.
  - intros y. by apply ed_four.
Qed.
Lemma degrees_counts : degrees_ok b H V <-> forall a c, a < m -> c < n -> (num a c <> 0 -> cnt4 a c = 1) /\ (num a c = 0 -> cnt4 a c = 2 \/ cnt4 a c = 0).
Proof.
  split.
  - intros HD a c Ha Hc. destruct (HD (a, c)) as [H1 H0]; [done|]. destruct (ed_count a c Ha Hc) as (C0 & C1 & C2). split.
    + intros Hn. by apply C1, H1.
    + intros Hn. destruct (H0 Hn) as [Hp|[_ Hp]]; [left; by apply C2|right; by apply C0].
  - intros HD [a c] [Ha Hc]. cbn in Ha, Hc. destruct (HD a c Ha Hc) as [H1 H0]. destruct (ed_count a c Ha Hc) as (C0 & C1 & C2). split.
    + intros Hn. by apply C1, H1.
    + intros Hn. destruct (H0 Hn) as [Hp|Hp]; [left; by apply C2|right; split; [done|by apply C0]].
Qed.
Lemma sol_degrees : solution b H V -> degrees_ok b H V.
Proof. intros HS c Hc. split; [by apply (sol_number _ _ _ HS)|by apply (sol_free _ _ _ HS)]. Qed.

Lemma rtc_on c z : rtc lk c z -> on_board b c -> on_board b z.
Proof. induction 1 as [|c d z Hl _ IH]; [done|]. intros _. apply IH. by apply (lk_on c). Qed.
Lemma rtc_closed (S : nat -> Prop) c z : closed E S -> rtc lk c z -> S (cv c) -> S (cv z).
Proof. intros HS. induction 1 as [|c d z Hl _ IH]; [done|]. intros Hc. apply IH. apply (HS (cv c)); [by apply lk_ed|done]. Qed.
Lemma reach_closed c : on_board b c -> closed E (fun x => exists z, x = cv z /\ rtc lk c z).
Proof.
  intros Hc x y He (z & -> & Hz). destruct (ed_cell z y (rtc_on _ _ Hz Hc) He) as (d & -> & Hl). exists d. split; [done|]. by eapply rtc_r.
Qed.

Lemma sol_good : solution b H V <-> pathgood (mm b) (colr b) E.
Proof.
  split.
  - intros HS. constructor; [constructor|..].
    + apply ed_sym.
    + intros x y Cx He. destruct (ed_cells _ _ He) as (c & d & -> & -> & Hl). destruct (lk_on _ _ Hl) as [Hc _]. rewrite cv_col in Cx by done.
      destruct (sol_free _ _ _ HS c Hc Cx) as [Hp|[_ Hn]]; [by apply part2 in Hp|by destruct (Hn d)].
    + intros x Hx Cx. destruct (cell_of x Hx) as (c & Hc & ->). rewrite cv_col in Cx by done. apply part1; [done|]. by apply (sol_number _ _ _ HS).
    + intros S x y HcS He Sx. destruct (ed_cells _ _ He) as (c & d & -> & -> & Hl). destruct (lk_on _ _ Hl) as [Hc _].
      destruct (sol_line _ _ _ HS c d Hl) as (z & Hz & Nz). pose proof (rtc_on _ _ Hz Hc) as Hoz. exists (cv z). split; [by apply cv_range|]. rewrite cv_col by done. split; [done|].
      by apply (rtc_closed S c z).
    + intros z z' Hz Cz Cz' Hne. destruct (cell_of z Hz) as (c & Hc & ->). exists (fun x => exists d, x = cv d /\ rtc lk c d).
      split; [by apply reach_closed|]. split; [by exists c|]. intros (d & -> & Hd). pose proof (rtc_on _ _ Hd Hc) as Hod. rewrite !cv_col in * by done.
      apply Hne. by apply (sol_same _ _ _ HS).
  - intros HG. pose proof (pg_degs _ _ _ HG) as HD. constructor.
    + intros c Hc Nc. apply part1; [done|]. apply (dg_col _ _ _ HD); [by apply cv_range|by rewrite cv_col].
    + intros c Hc Nc. destruct c as [a c]. destruct (ed_count a c) as (C0 & C1 & C2); [apply Hc|apply Hc|].
      destruct (decide (cnt4 a c = 0)) as [E0|E0]; [right; split; [done|by apply C0]|]. left. apply part2; [done|].
      assert (exists y, E (cv (a, c)) y) as [y Hy].
      { destruct Hc as [Ha Hc]. unfold cnt4 in E0. unfold cv. cbn [fst snd] in *. setoid_rewrite (ed_four a c _ Ha Hc). unfold four.
        destruct (lf a c); [eexists; left; done|]. destruct (rt a c); [eexists; right; left; done|]. destruct (up V a c); [eexists; right; right; left; done|].
        destruct (dn V a c); [eexists; right; right; right; done|]. done. }
      apply (dg_unc _ _ _ HD _ y); [by rewrite cv_col|done].
    + intros c d Hl. destruct (lk_on _ _ Hl) as [Hc Hd].
      destruct (pg_link _ _ _ HG (fun x => exists z, x = cv z /\ rtc lk c z) (cv c) (cv d)) as (y & Hy & Cy & z & -> & Hz); [by apply reach_closed|by apply lk_ed|by exists c|].
      exists z. split; [done|]. by rewrite <- cv_col by (by eapply rtc_on).
    + intros c d Hcd Nc Nd. destruct (decide (number b c = number b d)) as [|Hne]; [done|]. exfalso.
      destruct (decide (on_board b c)) as [Hc|Hc].
      * pose proof (rtc_on _ _ Hcd Hc) as Hd. destruct (pg_two _ _ _ HG (cv c) (cv d)) as (S & HS & S1 & S2); [by apply cv_range|by rewrite cv_col|by rewrite cv_col|by rewrite !cv_col|].
        apply S2. by apply (rtc_closed S c d).
      * destruct Hcd as [|c e d Hl _]; [done|]. by apply lk_on in Hl as [? _].
Qed.
End one.

(** ** the vertical links follow *)
Fixpoint vdn (i k : nat) : bool :=
  (if num i k =? 0 then 0 else 1) + b2n (lf i k) + b2n (rt i k) + match i with O => 0 | S i' => b2n (vdn i' k) end =? 1.
Lemma vdn_eq i k : vdn i k = ((if num i k =? 0 then 0 else 1) + b2n (lf i k) + b2n (rt i k) + b2n (up vdn i k) =? 1).
Proof. destruct i as [|i]; cbn [vdn]; unfold up; cbn [Nat.leb andb b2n]; [done|]. by replace (S i - 1) with i by lia. Qed.
Lemma vdn_of V : degrees_ok b H V -> forall i k, S i < m -> k < n -> V i k = vdn i k.
Proof.
  intros HD. pose proof (proj1 (degrees_counts V) HD) as HD0. clear HD. rename HD0 into HD. induction i as [|i IH]; intros k Hi Hk.
  - destruct (HD 0 k) as [H1 H0]; [lia|done|]. rewrite vdn_eq. unfold cnt4 in *. unfold up at 1 in H1. unfold up at 1 2 in H0. unfold up. cbn [Nat.leb andb b2n] in *.
    unfold P_Numlin2.dn in *. rewrite (proj2 (Nat.ltb_lt _ _) Hi) in *. cbn [andb] in *.
    destruct (Nat.eqb_spec (num 0 k) 0) as [E|E]; [specialize (H0 E)|specialize (H1 E)]; destruct (V 0 k), (lf 0 k), (rt 0 k); cbn in *; try done; lia.
  - destruct (HD (S i) k) as [H1 H0]; [lia|done|]. rewrite vdn_eq. assert (up V (S i) k = up vdn (S i) k) as EU.
    { unfold up. cbn [Nat.leb andb]. replace (S i - 1) with i by lia. apply IH; lia. }
    unfold cnt4 in *. rewrite EU in H1, H0. unfold P_Numlin2.dn in *. rewrite (proj2 (Nat.ltb_lt _ _) Hi) in *. cbn [andb] in *.
    destruct (Nat.eqb_spec (num (S i) k) 0) as [E|E]; [specialize (H0 E)|specialize (H1 E)]; destruct (V (S i) k), (lf (S i) k), (rt (S i) k), (up vdn (S i) k); cbn in *; try done; lia.
Qed.
Lemma linked_ext V V' c d : (forall i k, S i < m -> k < n -> V i k = V' i k) -> linked b H V c d -> linked b H V' c d.
Proof.
  intros HV. rewrite !lk_ed. intros (Hc & Hd & He). split; [done|]. split; [done|]. revert He. apply rel_mono; [done|]. intros i k Hi Hk. by rewrite HV.
Qed.
Lemma pathgood_ext E E' : (forall x y, E x y <-> E' x y) -> pathgood (mm b) (colr b) E -> pathgood (mm b) (colr b) E'.
Proof.
  intros HE HG. pose proof (pg_degs _ _ _ HG) as HD. constructor; [constructor|..].
  - intros x y. rewrite <- !HE. apply (dg_sym _ _ _ HD).
  - intros x y C. rewrite <- HE. intros He. destruct (dg_unc _ _ _ HD x y C He) as (z & z' & Hzz & Hz). exists z, z'. split; [done|]. intros w. by rewrite <- HE.
  - intros x Hx C. destruct (dg_col _ _ _ HD x Hx C) as (z & Hz). exists z. intros w. by rewrite <- HE.
  - intros S x y HS. rewrite <- HE. apply (pg_link _ _ _ HG). intros u w Hu. apply HS. by apply HE.
  - intros z z' Hz C C' Hne. destruct (pg_two _ _ _ HG z z' Hz C C' Hne) as (S & HS & ?). exists S. split; [|done]. intros u w Hu. apply HS. by apply HE.
Qed.
Lemma sol_ext V V' : (forall i k, S i < m -> k < n -> V i k = V' i k) -> solution b H V -> solution b H V'.
Proof.
  intros HV. rewrite !sol_good. apply pathgood_ext. apply rel_iff; [done|]. intros i k Hi Hk. by rewrite HV.
Qed.

(** ** unused cells *)
Definition before (i k : nat) : list (nat * nat) := flat_map (fun a => map (pair a) (seq 0 n)) (seq 0 i) ++ map (pair i) (seq 0 k).
Lemma before_0 : before 0 0 = [].
Proof. done. Qed.
Lemma before_S i k : before i (S k) = before i k ++ [(i, k)].
Proof. unfold before. rewrite seq_S, map_app, app_assoc. done. Qed.
Lemma before_row i : before i n = before (S i) 0.
Proof. unfold before. rewrite seq_S, flat_map_app. cbn. rewrite !app_nil_r. done. Qed.
Lemma before_in i k a c : k <= n -> (a, c) ∈ before i k <-> c < n /\ bef i k a c.
Proof.
  intros Hk. unfold before, bef. rewrite elem_of_app, !elem_of_list_In, in_flat_map, in_map_iff. split.
  - intros [(x & Hx & Hin)|(x & [= <- <-] & Hx)].
    + apply in_map_iff in Hin as (y & [= <- <-] & Hy). apply in_seq in Hx, Hy. lia.
    + apply in_seq in Hx. lia.
  - intros [Hc [Ha|[-> Hck]]].
    + left. exists a. rewrite in_seq, in_map_iff. split; [lia|]. exists c. rewrite in_seq. split; [done|lia].
    + right. exists c. rewrite in_seq. split; [done|lia].
Qed.
Lemma before_nd i : forall k, k <= n -> NoDup (before i k).
Proof.
  induction i as [|i IH]; intros k Hk.
  - induction k as [|k IHk]; [constructor|]. rewrite before_S. apply NoDup_app. split; [apply IHk; lia|]. split; [|apply NoDup_singleton].
    intros [a c] Hin Hs%elem_of_list_singleton. injection Hs as -> ->. apply before_in in Hin; [|lia]. unfold bef in Hin. lia.
  - induction k as [|k IHk]; [rewrite <- before_row; apply IH; lia|]. rewrite before_S. apply NoDup_app. split; [apply IHk; lia|]. split; [|apply NoDup_singleton].
    intros [a c] Hin Hs%elem_of_list_singleton. injection Hs as -> ->. apply before_in in Hin; [|lia]. unfold bef in Hin. lia.
Qed.

Definition blankb (p : nat * nat) : bool := let '(a, c) := p in (num a c =? 0) && (b2n (lf a c) + b2n (rt a c) + b2n (up vdn a c) =? 0).
Definition cnt (i k : nat) : nat := length (filter (fun p => blankb p = true) (before i k)).
Lemma cnt_S i k : cnt i (S k) = cnt i k + b2n (blankb (i, k)).
Proof.
  unfold cnt. rewrite before_S, filter_app, app_length. f_equal. destruct (blankb (i, k)) eqn:E.
  - rewrite filter_cons_True by done. done.
  - rewrite filter_cons_False by congruence. done.
Qed.
Lemma cnt_row i : cnt i n = cnt (S i) 0.
Proof. unfold cnt. by rewrite before_row. Qed.
Lemma cnt_mono i k : k <= n -> i < m -> cnt i k <= cnt m 0.
Proof.
  intros Hk Hi. unfold cnt. apply submseteq_length, NoDup_submseteq; [apply NoDup_filter, before_nd; done|].
  intros [a c]. rewrite !elem_of_list_filter, !before_in by lia. intros (? & ? & Hbef). split; [done|]. split; [done|]. unfold bef in *. lia.
Qed.
Lemma blank_iff c : on_board b c -> blank b H vdn c <-> blankb c = true.
Proof.
  destruct c as [a c]. intros [Ha Hc]. cbn in Ha, Hc. unfold blank, blankb. destruct (ed_count vdn a c Ha Hc) as (C0 & _). rewrite C0, andb_true_iff, !Nat.eqb_eq. unfold cnt4. split.
  - intros [E ?]. split; [done|lia].
  - intros [E1 E2]. split; [done|]. assert (vdn a c = false) as Ev.
    { rewrite vdn_eq, E1. cbn [Nat.eqb]. apply Nat.eqb_neq. lia. }
    unfold P_Numlin2.dn. rewrite Ev, andb_false_r. cbn. lia.
Qed.
Lemma blanks_iff k : blanks_at_most b H vdn k <-> ((0 <= k)%Z -> (Z.of_nat (cnt m 0) <= k)%Z).
Proof.
  split; intros HB Hk.
  - apply HB; [done|apply NoDup_filter, before_nd; lia|]. intros [a c]. rewrite elem_of_list_filter, before_in by lia. intros (E & Hc & Hbef).
    assert (on_board b (a, c)) as Hon by (unfold bef in Hbef; split; cbn; lia). split; [done|]. by apply blank_iff.
  - intros cs Hnd Hcs. specialize (HB Hk). assert (length cs <= cnt m 0); [|lia]. unfold cnt. apply submseteq_length, NoDup_submseteq; [done|].
    intros [a c] Hin. destruct (Hcs _ Hin) as [Hon Hbl]. rewrite elem_of_list_filter, before_in by lia. split; [by apply blank_iff|]. destruct Hon as [Ha Hc]. split; [done|by left].
Qed.
End sol.
