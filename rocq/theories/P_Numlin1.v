(** Path systems: what joining two paths does to the live vertices, and when a set of edges cannot be completed. *)
From stdpp Require Import strings.
From Verif Require Import Base Sem M_Graph S_Simpath P_Simpath1 P_Simpath2 P_Simpath3.
Local Open Scope nat_scope.

Section gen.
Context (m : nat) (col : nat -> nat).
Lemma live_on P R l v x w : conf m col P R -> P (l ++ [v]) -> (l = [] \/ col v = 0) -> live col P x w -> x ∈ l ++ [v] ->
  (x = v /\ w = endv col (hd v l)) \/ (x = hd v l /\ x <> v /\ w = endv col v /\ col v = 0 /\ col x = 0).
Proof.
  intros HC Hp Hcv Hlv Hx. destruct Hlv as (k & Hk & Hc & ->). apply elem_of_app in Hx as [Hx| ->%elem_of_list_singleton].
  - right. destruct l as [|a l]; [by apply elem_of_nil in Hx|]. destruct Hcv as [?|Hcv]; [done|].
    assert (Hne : x <> v). { intros ->. apply (c_nd _ _ _ _ HC), NoDup_app in Hp as (_ & Hp & _). apply (Hp v Hx). set_solver. }
    destruct (c_uniq _ _ _ _ HC _ _ x Hp Hk) as [E1|E1]; [set_solver|set_solver|by apply app_inj_tail in E1 as [_ ?]|].
    change ((a :: l) ++ [v]) with (a :: l ++ [v]) in E1. rewrite rev_ends, app_comm_cons in E1. apply app_inj_tail in E1 as [-> ->]. cbn. destruct Hc as [?|Hc]; [done|]. done.
  - left. by rewrite (conf_snoc _ _ _ _ HC _ _ _ Hp Hk).
Qed.
Lemma ends_disjoint P R v1 v2 l k : conf m col P R -> v1 <> v2 -> P (l ++ [v1]) -> P (k ++ [v2]) -> (k = [] \/ col v2 = 0) ->
  endv col (hd v1 l) <> Z.of_nat v2 -> forall x, x ∈ l ++ [v1] -> x ∉ k ++ [v2].
Proof.
  intros HC Hne H1 H2 Hc Hw x Hx Hx'. destruct (c_uniq _ _ _ _ HC _ _ x H1 H2 Hx Hx') as [E1|E1].
  - by apply app_inj_tail in E1 as [_ ?].
  - destruct l as [|a l]; [destruct k as [|b k]; [by injection E1|injection E1 as _ E1; by destruct k]|].
    change ((a :: l) ++ [v1]) with (a :: l ++ [v1]) in E1. rewrite rev_ends, app_comm_cons in E1. apply app_inj_tail in E1 as [-> ->]. apply Hw. cbn. destruct Hc as [?|Hc]; [done|].
    unfold endv. by rewrite Hc.
Qed.

(** the live vertices after a join *)
Lemma join_live P R v1 v2 w1 w2 : conf m col P R -> v1 <> v2 -> live col P v1 w1 -> live col P v2 w2 ->
  w1 <> Z.of_nat v2 -> ((w1 < 0)%Z -> (w2 < 0)%Z -> w1 = w2) ->
  exists P', conf m col P' (fun x y => R x y \/ (x = v1 /\ y = v2) \/ (x = v2 /\ y = v1)) /\
    (forall x, P [x] -> x <> v1 -> x <> v2 -> P' [x]) /\
    forall z w, live col P' z w <-> (w1 = Z.of_nat z /\ w = w2) \/ (w2 = Z.of_nat z /\ w = w1) \/
      (z <> v1 /\ z <> v2 /\ w1 <> Z.of_nat z /\ w2 <> Z.of_nat z /\ live col P z w).
Proof.
  intros HC Hne HL1 HL2 Hd Hs. pose proof HL1 as (l & H1 & Hc1 & E1). pose proof HL2 as (k & H2 & Hc2 & E2).
  assert (HD : forall x, x ∈ l ++ [v1] -> x ∉ k ++ [v2]) by (eapply ends_disjoint; [exact HC|done|done|done|done|congruence]).
  assert (HS : col (hd v1 l) <> 0 -> col (hd v2 k) <> 0 -> col (hd v1 l) = col (hd v2 k)).
  { intros C1 C2. unfold endv in E1, E2. rewrite (proj2 (Nat.ltb_lt 0 (col (hd v1 l)))) in E1 by lia. rewrite (proj2 (Nat.ltb_lt 0 (col (hd v2 k)))) in E2 by lia. specialize (Hs ltac:(lia) ltac:(lia)). lia. }
  exists (Pj P v1 v2 l k). split; [exact (join_conf m col P R HC v1 v2 l k H1 H2 HD Hc1 Hc2 HS)|]. split.
  { intros x Hx N1 N2. left. split; [done|]. by rewrite !elem_of_list_singleton. }
  assert (Hr1 : forall z, w1 = Z.of_nat z <-> z = hd v1 l /\ col (hd v1 l) = 0).
  { intros z. rewrite E1. unfold endv. destruct (Nat.ltb_spec 0 (col (hd v1 l))); split; [lia|intros [_ ?]; lia| |intros [-> _]; done].
    intros <-%Nat2Z.inj. split; [done|lia]. }
  assert (Hr2 : forall z, w2 = Z.of_nat z <-> z = hd v2 k /\ col (hd v2 k) = 0).
  { intros z. rewrite E2. unfold endv. destruct (Nat.ltb_spec 0 (col (hd v2 k))); split; [lia|intros [_ ?]; lia| |intros [-> _]; done].
    intros <-%Nat2Z.inj. split; [done|lia]. }
  pose proof (join_live1 m col P R HC v1 v2 l k H1 H2 HD Hc1 Hc2 HS) as J1.
  pose proof (join_live2 m col P R HC v1 v2 l k H1 H2 HD Hc1 Hc2 HS) as J2.
  intros z w. destruct (decide (z ∈ J v1 v2 l k)) as [Hj|Hj].
  - split.
    + intros Hl. destruct (join_live_in m col P R HC v1 v2 l k H1 H2 HD Hc1 Hc2 HS z w Hj Hl) as [->| ->].
      * left. apply J1 in Hl as [C ->]. split; [by apply Hr1|done].
      * right; left. apply J2 in Hl as [C ->]. split; [by apply Hr2|done].
    + intros [[Hz ->]|[[Hz ->]|(N1 & N2 & N3 & N4 & Hl)]].
      * apply Hr1 in Hz as [-> C]. apply J1. done.
      * apply Hr2 in Hz as [-> C]. apply J2. done.
      * exfalso. apply (J_in v1 v2 l k) in Hj as [Hj|Hj].
        -- destruct (live_on P R l v1 z w HC H1 Hc1 Hl Hj) as [[-> _]|(-> & _ & _ & _ & C)]; [done|]. apply N3, Hr1. done.
        -- destruct (live_on P R k v2 z w HC H2 Hc2 Hl Hj) as [[-> _]|(-> & _ & _ & _ & C)]; [done|]. apply N4, Hr2. done.
  - rewrite (join_live_out m col P R HC v1 v2 l k H1 H2 HD Hc1 Hc2 HS z w Hj). rewrite (J_in v1 v2 l k) in Hj. split.
    + intros Hl. right; right. split_and!; [intros ->; apply Hj; set_solver|intros ->; apply Hj; set_solver|..|done].
      * intros [-> _]%Hr1. apply Hj. left. destruct l; cbn; set_solver.
      * intros [-> _]%Hr2. apply Hj. right. destruct k; cbn; set_solver.
    + intros [[Hz ->]|[[Hz ->]|(_ & _ & _ & _ & Hl)]]; [..|done].
      * exfalso. apply Hr1 in Hz as [-> _]. apply Hj. left. destruct l; cbn; set_solver.
      * exfalso. apply Hr2 in Hz as [-> _]. apply Hj. right. destruct k; cbn; set_solver.
Qed.

(** the single paths *)
Lemma conf_init : conf m col (fun r => exists x, r = [x] /\ 1 <= x <= m) (fun _ _ => False).
Proof.
  constructor.
  - intros p (x & -> & Hx). by exists x.
  - intros p (x & -> & Hx). apply NoDup_singleton.
  - by intros (x & ? & _).
  - intros x. split; [intros Hx; exists [x]; split; [by exists x|set_solver]|]. intros (p & (y & -> & Hy) & Hx). by apply elem_of_list_singleton in Hx as ->.
  - intros p q x (y & -> & _) (z & -> & _) Hx Hx'. apply elem_of_list_singleton in Hx as ->. apply elem_of_list_singleton in Hx' as ->. by left.
  - intros x y. split; [done|]. intros (p & (z & -> & _) & Hn). by apply next_one in Hn.
  - intros l1 l2 x (z & El & _) H1 _. destruct l1 as [|a [|b l1]]; done.
  - intros x l y (z & El & _). by destruct l.
Qed.
Lemma live_single (P : list nat -> Prop) x : P [x] -> live col P x (endv col x).
Proof. intros Hp. exists []. split; [done|]. split; [by left|done]. Qed.

(** what a vertex looks like *)
Lemma live_degree P R x w : conf m col P R -> live col P x w ->
  (P [x] /\ w = endv col x /\ forall y, ~ R x y) \/ (col x = 0 /\ w <> Z.of_nat x /\ exists a, forall y, R x y <-> y = a).
Proof.
  intros HC (l & Hp & Hc & ->). destruct (snoc_inv l) as [->|(k & a & ->)].
  - left. split; [done|]. split; [done|]. intros y. by apply (conf_next_one _ _ _ _ HC).
  - right. destruct Hc as [Hc|Hc]; [by destruct k|]. split; [done|]. split.
    + intros E. assert (hd x (k ++ [a]) <> x) as Hn. { pose proof (c_nd _ _ _ _ HC _ Hp) as Hnd. destruct k as [|b k]; cbn in *.
        - intros ->. apply NoDup_cons in Hnd as [Hnd _]. set_solver.
        - intros ->. apply NoDup_cons in Hnd as [Hnd _]. set_solver. }
      unfold endv in E. destruct (Nat.ltb_spec 0 (col (hd x (k ++ [a])))); lia.
    + exists a. intros y. rewrite (conf_next_end _ _ _ _ HC _ _ _ Hp). split; [intros [k' E]; by apply app_inj_tail in E as [_ ->]|intros ->; by exists k].
Qed.
Lemma dead_degree P R x : conf m col P R -> 1 <= x <= m -> (forall w, ~ live col P x w) ->
  (col x <> 0 /\ exists a, forall y, R x y <-> y = a) \/ (col x = 0 /\ exists a b, a <> b /\ forall y, R x y <-> y = a \/ y = b).
Proof.
  intros HC Hx Hn. destruct (not_live _ _ _ _ HC x Hx) as [(l & a & Hp & Hc)|(l1 & l2 & a & b & Hp)].
  - intros [w Hw]. by apply (Hn w).
  - left. split; [done|]. exists a. intros y. replace (l ++ [a; x]) with ((l ++ [a]) ++ [x]) in Hp by (by rewrite <- app_assoc).
    rewrite (conf_next_end _ _ _ _ HC _ _ _ Hp). split; [intros [k' E]; by apply app_inj_tail in E as [_ ->]|intros ->; by exists l].
  - right. destruct (conf_int_ne _ _ _ _ HC _ _ _ _ _ Hp) as [Hab Hc]. split; [done|]. exists a, b. split; [done|]. intros y. by apply (conf_next_int _ _ _ _ HC _ _ _ _ _ _ Hp).
Qed.

(** the mate of a live vertex that is not colored is live *)
Lemma mate_live P R x z : conf m col P R -> live col P x (Z.of_nat z) -> x = z \/ live col P z (Z.of_nat x).
Proof.
  intros HC Hl. destruct (live_pos _ _ _ _ HC _ _ Hl) as [_ [[-> _]|(_ & C & _)]]; [by left|]. right. by apply (live_sym _ _ _ _ HC).
Qed.
Lemma self_mate P R x : conf m col P R -> live col P x (Z.of_nat x) -> P [x] /\ col x = 0.
Proof. intros HC Hl. destruct (live_pos _ _ _ _ HC _ _ Hl) as [C [[_ Hp]|(? & _)]]; done. Qed.

(** ** a set of edges that cannot be completed *)
Section bad.
Context (P : list nat -> Prop) (R E : nat -> nat -> Prop) (HC : conf m col P R) (HRE : forall x y, R x y -> E x y) (HG : pathgood m col E).

Lemma no_dead x y : 1 <= x <= m -> (forall w, ~ live col P x w) -> E x y -> R x y.
Proof. intros Hx Hn He. apply (full_vertex m col P R E HC HRE (pg_degs _ _ _ HG)); [done| |done]. intros [w Hw]. by apply (Hn w). Qed.
Lemma no_cycle x z : x <> z -> live col P x (Z.of_nat z) -> E x z -> R x z.
Proof.
  intros Hne Hl He. destruct (live_pos _ _ _ _ HC _ _ Hl) as [Cz [[-> _]|(_ & Cx & q & Hp)]]; [done|].
  assert (~ ~ R x z) as Hnn.
  { intros Hn. pose proof (closed_cycle m col P R E HC HRE (pg_degs _ _ _ HG) z q x Hp Cz Cx He Hn) as Hcl.
    destruct (pg_link _ _ _ HG _ x z Hcl He) as (y & _ & Cy & Hy); [set_solver|]. apply Cy.
    apply elem_of_cons in Hy as [->|Hy]; [done|]. apply elem_of_app in Hy as [Hy| ->%elem_of_list_singleton]; [|done].
    apply elem_of_list_split in Hy as (q1 & q2 & ->). apply (c_int _ _ _ _ HC (z :: q1) (q2 ++ [x]) y); [|done|by destruct q2].
    rewrite <- app_assoc in Hp. exact Hp. }
  destruct q as [|a q]; [|destruct Hnn; intros Hr].
  - apply (conf_next_end _ _ _ _ HC [z] x z Hp). by exists [].
  - apply (conf_next_end _ _ _ _ HC (z :: a :: q) x z Hp) in Hr as [k Hk]. pose proof (c_nd _ _ _ _ HC _ Hp) as Hnd.
    destruct k as [|b k]; [done|]. injection Hk as -> Hk. rewrite <- app_comm_cons in Hnd. apply NoDup_cons in Hnd as [Hnd _]. destruct Hnd. change (a :: q ++ [x]) with ((a :: q) ++ [x]). rewrite Hk. set_solver.
Qed.
Lemma no_clash x y w1 w2 : live col P x w1 -> live col P y w2 -> E x y -> (w1 < 0)%Z -> (w2 < 0)%Z -> w1 = w2.
Proof.
  intros H1 H2 He N1 N2. destruct (live_neg _ _ _ _ H1 N1) as (l & Hp & _ & C1 & ->). destruct (live_neg _ _ _ _ H2 N2) as (k & Hq & _ & C2 & ->).
  destruct (decide (col (hd x l) = col (hd y k))) as [->|Hne]; [done|]. exfalso.
  assert (hd x l ∈ l ++ [x]) as M1 by (destruct l; cbn; set_solver). assert (hd y k ∈ k ++ [y]) as M2 by (destruct k; cbn; set_solver).
  destruct (pg_two _ _ _ HG (hd x l) (hd y k)) as (S & HS & S1 & S2); [by eapply (conf_range _ _ _ _ HC); [exact Hp|]|done|done|done|].
  apply S2. assert (HSR : forall a b, R a b -> S a -> S b) by (intros a b Hr; apply HS, HRE, Hr).
  eapply (conf_conn _ _ _ _ HC S (k ++ [y]) y (hd y k)); [exact HSR|exact Hq|set_solver|done|].
  apply (HS x); [done|]. eapply (conf_conn _ _ _ _ HC S (l ++ [x]) (hd x l) x); [exact HSR|exact Hp|done|set_solver|done].
Qed.
(** a vertex all whose edges are there is finished or unused *)
Lemma no_loose x w : live col P x w -> (forall y, E x y -> R x y) -> w = Z.of_nat x.
Proof.
  intros Hl Hall. destruct (live_degree _ _ _ _ HC Hl) as [(Hp & -> & Hn)|(C & Hw & a & Ha)].
  - unfold endv. destruct (Nat.ltb_spec 0 (col x)); [|done]. exfalso.
    destruct (dg_col _ _ _ (pg_degs _ _ _ HG) x) as [b Hb]; [by eapply (conf_range _ _ _ _ HC); [exact Hp|set_solver]|lia|].
    apply (Hn b), Hall, Hb. done.
  - exfalso. assert (E x a) as He by (apply HRE, Ha; done). destruct (dg_unc _ _ _ (pg_degs _ _ _ HG) x a C He) as (b & c & Hbc & Hz).
    assert (b = a) by (apply Ha, Hall, Hz; tauto). assert (c = a) by (apply Ha, Hall, Hz; tauto). congruence.
Qed.
End bad.

(** ** when nothing is loose *)
Context (Hout : forall x, col x <> 0 -> 1 <= x <= m).
Notation done_conf := (done_conf m col).
Lemma done_good P E : done_conf P E -> pathgood m col E.
Proof.
  intros (HC & Hdone & Hcol). constructor; [constructor|..].
  - apply (conf_sym _ _ _ _ HC).
  - intros x y Cx He. assert (1 <= x <= m) as Hx. { apply (c_cov _ _ _ _ HC). apply (c_adj _ _ _ _ HC) in He as (p & Hp & Hn). exists p. split; [done|by apply next_in in Hn as [? _]]. }
    destruct (conf_place _ _ _ _ HC x Hx) as [[l Hl]|(l1 & l2 & a & b & Hp)].
    + apply (conf_next_end _ _ _ _ HC _ _ _ Hl) in He as [k ->].
      destruct (Hdone _ Hl) as (u & q & w & E1 & _ & Hw); [rewrite !app_length; cbn; lia|]. rewrite app_comm_cons in E1. apply app_inj_tail in E1 as [_ ->]. done.
    + exists a, b. split; [by eapply (conf_int_ne _ _ _ _ HC)|]. intros z. by apply (conf_next_int _ _ _ _ HC _ _ _ _ _ _ Hp).
  - intros x Hx Cx. destruct (conf_place _ _ _ _ HC x Hx) as [[l Hl]|(l1 & l2 & a & b & Hp)].
    + destruct (snoc_inv l) as [->|(k & a & ->)]; [by apply Hcol in Hl|]. exists a. intros z. rewrite (conf_next_end _ _ _ _ HC _ _ _ Hl). split.
      * intros [k' E1]. by apply app_inj_tail in E1 as [_ ->].
      * intros ->. by exists k.
    + by apply (conf_int_ne _ _ _ _ HC) in Hp as [_ ?].
  - intros S x y HS He Hx. apply (c_adj _ _ _ _ HC) in He as (p & Hp & Hn). pose proof (next_in _ _ _ Hn) as [Hxp _].
    destruct (Hdone p Hp) as (u & q & w & -> & Cu & Cw); [destruct Hn as (a & b & ->); rewrite app_length; cbn; lia|].
    exists u. split; [by apply Hout|]. split; [done|]. by eapply (conf_conn _ _ _ _ HC S _ x u HS Hp); [|set_solver|].
  - intros z z' Hz Cz Cz' Hne. apply (c_cov _ _ _ _ HC) in Hz as (p & Hp & Hz). exists (fun x => x ∈ p). split_and!; [|done|].
    + intros a b He Ha. by eapply same_path.
    + intros Hz'. apply Hne. clear Hne.
      assert (Hend : forall z, z ∈ p -> col z <> 0 -> exists l, p = l ++ [z] \/ p = z :: l).
      { intros y Hy Cy. apply elem_of_list_split in Hy as (l1 & l2 & ->). destruct l2 as [|b l2]; [exists l1; by left|]. destruct l1 as [|a l1]; [eexists; by right|].
        exfalso. apply Cy. by eapply (c_int _ _ _ _ HC _ _ _ Hp). }
      destruct (Hend z Hz Cz) as (l & Hl). destruct (Hend z' Hz' Cz') as (l' & Hl').
      destruct Hl as [->| ->], Hl' as [E1|E1].
      * by apply app_inj_tail in E1 as [_ ->].
      * destruct l as [|c l]; cbn in E1; injection E1 as -> E1; [done|]. symmetry. by apply (c_same _ _ _ _ HC z' l z).
      * destruct l' as [|c l']; cbn in E1; injection E1 as -> E1; [done|]. subst. by apply (c_same _ _ _ _ HC c l' z').
      * by injection E1 as ->.
Qed.
Lemma settled_good P R : conf m col P R -> (forall x w, live col P x w -> w = Z.of_nat x) -> pathgood m col R.
Proof.
  intros HC Hs. assert (Hend : forall l a, P (l ++ [a]) -> l <> [] -> col a <> 0).
  { intros l a Hp Hl Ha. assert (live col P a (endv col (hd a l))) as Hlv by (exists l; split; [done|]; split; [by right|done]).
    pose proof (Hs _ _ Hlv) as Hw. rewrite Hw in Hlv. apply (self_mate P R a HC) in Hlv as [Hp1 _]. apply Hl. by apply (conf_snoc _ _ _ _ HC l [] a Hp). }
  apply (done_good P). split; [done|]. split.
  - intros p Hp H2. destruct (len2 p H2) as (x & q & y & ->). exists x, q, y. split; [done|]. split.
    + apply (c_rev _ _ _ _ HC) in Hp. rewrite rev_ends, app_comm_cons in Hp. by apply (Hend _ _ Hp).
    + rewrite app_comm_cons in Hp. by apply (Hend _ _ Hp).
  - intros z Cz Hp. pose proof (Hs z _ (live_single P z Hp)) as E. unfold endv in E. rewrite (proj2 (Nat.ltb_lt _ _)) in E by lia. lia.
Qed.
End gen.
