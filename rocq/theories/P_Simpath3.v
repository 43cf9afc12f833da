(** Consequences of being a cycle / a system of links, and how to recognise them from the paths formed so far. *)
From stdpp Require Import strings.
From Verif Require Import Base Sem M_Graph S_Simpath P_Simpath1 P_Simpath2.
Local Open Scope nat_scope.

Lemma rev_ends {A} (x y : A) l : rev (x :: l ++ [y]) = y :: rev l ++ [x].
Proof. rewrite app_comm_cons, rev_snoc. done. Qed.
Definition closed (E : nat -> nat -> Prop) (S : nat -> Prop) : Prop := forall a b, E a b -> S a -> S b.

Record degs (m : nat) (col : nat -> nat) (E : nat -> nat -> Prop) : Prop := {
  dg_sym : forall x y, E x y -> E y x;
  dg_unc : forall x y, col x = 0 -> E x y -> exists a b, a <> b /\ forall z, E x z <-> z = a \/ z = b;
  dg_col : forall x, 1 <= x <= m -> col x <> 0 -> exists a, forall z, E x z <-> z = a
}.
Record pathgood (m : nat) (col : nat -> nat) (E : nat -> nat -> Prop) : Prop := {
  pg_degs : degs m col E;
  pg_link : forall S x y, closed E S -> E x y -> S x -> exists z, 1 <= z <= m /\ col z <> 0 /\ S z;
  pg_two : forall z z', 1 <= z <= m -> col z <> 0 -> col z' <> 0 -> col z <> col z' -> exists S, closed E S /\ S z /\ ~ S z'
}.
Record cyclegood (m : nat) (col : nat -> nat) (E : nat -> nat -> Prop) : Prop := {
  cg_degs : degs m col E;
  cg_conn : forall S x y x' y', closed E S -> E x y -> S x -> E x' y' -> S x';
  cg_some : exists x y, E x y
}.

(** both ends of a path of at least two vertices are colored *)
Definition complete (col : nat -> nat) (p : list nat) : Prop := exists x q y, p = x :: q ++ [y] /\ col x <> 0 /\ col y <> 0.
Lemma complete_rev col p : complete col p -> complete col (rev p).
Proof. intros (x & q & y & -> & Hx & Hy). exists y, (rev q), x. split; [|done]. rewrite rev_ends. done. Qed.

Section use.
Context (m : nat) (col : nat -> nat) (P : list nat -> Prop) (R E : nat -> nat -> Prop).
Context (HC : conf m col P R) (HRE : forall x y, R x y -> E x y).

Lemma same_path p a b : P p -> a ∈ p -> R a b -> b ∈ p.
Proof.
  intros Hp Ha (q & Hq & Hn)%(c_adj _ _ _ _ HC). apply next_in in Hn as [Hx Hy].
  destruct (c_uniq _ _ _ _ HC _ _ a Hp Hq Ha Hx) as [->| ->]; [done|by apply (proj1 (elem_of_rev _ _)) in Hy].
Qed.

Context (HG : degs m col E).
(** a vertex that is not live has all its edges already *)
Lemma full_vertex x y : 1 <= x <= m -> ~ (exists w, live col P x w) -> E x y -> R x y.
Proof.
  intros Hx Hn He. destruct (not_live _ _ _ _ HC x Hx Hn) as [(l & a & Hp & Hc)|(l1 & l2 & a & b & Hp)].
  - destruct (dg_col _ _ _ HG x Hx Hc) as (c & Hz). assert (R x a) as Ra.
    { apply (conf_next_end _ _ _ _ HC (l ++ [a])); [by rewrite <- app_assoc|by exists l]. }
    apply Hz in He as ->. pose proof (proj1 (Hz _) (HRE _ _ Ra)) as <-. done.
  - destruct (conf_int_ne _ _ _ _ HC _ _ _ _ _ Hp) as [Hab Hc]. destruct (dg_unc _ _ _ HG x y Hc He) as (c & d & Hcd & Hz).
    assert (R x a) as Ra by (apply (conf_next_int _ _ _ _ HC _ _ _ _ _ _ Hp); tauto). assert (R x b) as Rb by (apply (conf_next_int _ _ _ _ HC _ _ _ _ _ _ Hp); tauto).
    pose proof (proj1 (Hz _) (HRE _ _ Ra)) as Ha. pose proof (proj1 (Hz _) (HRE _ _ Rb)) as Hb. apply Hz in He.
    destruct Ha, Hb, He; subst; done.
Qed.
Lemma complete_not_live p x w : P p -> complete col p -> x ∈ p -> ~ live col P x w.
Proof.
  intros Hp (a & q & b & -> & Ha & Hb) Hx. apply elem_of_cons in Hx as [->|Hx].
  - intros (l & Hl & Hc & _). apply (c_rev _ _ _ _ HC) in Hp. rewrite rev_ends in Hp. cbn [rev] in Hp. rewrite app_comm_cons in Hp.
    pose proof (conf_snoc _ _ _ _ HC _ _ _ Hp Hl) as <-. by destruct Hc.
  - apply elem_of_app in Hx as [Hx| ->%elem_of_list_singleton].
    + apply elem_of_list_split in Hx as (q1 & q2 & ->). destruct (snoc_inv (a :: q1)) as [|(q1' & c & E1)]; [done|].
      destruct (q2 ++ [b]) as [|d q3] eqn:E2; [by destruct q2|]. rewrite <- app_assoc, app_comm_cons, E1 in Hp. cbn in Hp. rewrite E2, <- app_assoc in Hp.
      eapply (live_int _ _ _ _ HC q1' q3 c x d). exact Hp.
    + intros (l & Hl & Hc & _). rewrite app_comm_cons in Hp. pose proof (conf_snoc _ _ _ _ HC _ _ _ Hp Hl) as <-. by destruct Hc.
Qed.
Lemma closed_complete p : P p -> complete col p -> closed E (fun x => x ∈ p).
Proof.
  intros Hp Hc a b He Ha. apply (same_path p a b Hp Ha). apply full_vertex; [by eapply (conf_range _ _ _ _ HC)| |done].
  intros [w Hw]. by eapply complete_not_live.
Qed.
(** closing a path to a cycle *)
Lemma cycle_full z q x : P (z :: q ++ [x]) -> col z = 0 -> col x = 0 -> E x z -> ~ R x z ->
  forall a b, a ∈ z :: q ++ [x] -> E a b -> R a b \/ (a = x /\ b = z) \/ (a = z /\ b = x).
Proof.
  intros Hp Cz Cx Hxz Hn.
  assert (Hq : q <> []). { intros ->. apply Hn. apply (conf_next_end _ _ _ _ HC [z]); [done|by exists []]. }
  assert (Hend : forall z x q, P (z :: q ++ [x]) -> col x = 0 -> E x z -> q <> [] -> forall b, E x b -> R x b \/ b = z).
  { clear z q x Hp Cz Cx Hxz Hn Hq. intros z x q Hp Cx Hxz Hq b He. destruct (snoc_inv q) as [->|(q' & c & ->)]; [done|].
    destruct (dg_unc _ _ _ HG x b Cx He) as (d & e & Hde & Hz).
    assert (R x c) as Rc. { apply (conf_next_end _ _ _ _ HC (z :: q' ++ [c])); [exact Hp|by exists (z :: q')]. }
    pose proof (HRE _ _ Rc) as Hxc.
    assert (z <> c) as Hzc. { intros ->. apply (c_nd _ _ _ _ HC), NoDup_cons in Hp as [Hp _]. set_solver. }
    apply Hz in Hxz, Hxc, He. assert (b = z \/ b = c) as [->| ->] by (destruct Hxz, Hxc, He; subst; tauto); tauto. }
  intros a b Ha He. apply elem_of_cons in Ha as [->|Ha].
  - assert (P (x :: rev q ++ [z])) as Hp'. { apply (c_rev _ _ _ _ HC) in Hp. rewrite rev_ends in Hp. exact Hp. }
    destruct (Hend x z (rev q) Hp' Cz (dg_sym _ _ _ HG _ _ Hxz)) with b; [|done|by left|by right; right].
    intros Er. apply Hq. apply (f_equal (@rev nat)) in Er. by rewrite rev_involutive in Er.
  - apply elem_of_app in Ha as [Ha| ->%elem_of_list_singleton]; [|destruct (Hend z x q Hp Cx Hxz Hq b He); [by left|by right; left]].
    left. apply full_vertex; [eapply (conf_range _ _ _ _ HC); [exact Hp|set_solver]| |done].
    intros [w Hw]. apply elem_of_list_split in Ha as (q1 & q2 & ->). destruct (snoc_inv (z :: q1)) as [|(q1' & c & E1)]; [done|].
    destruct (q2 ++ [x]) as [|d q3] eqn:E2; [by destruct q2|]. rewrite <- app_assoc, app_comm_cons, E1 in Hp. cbn in Hp. rewrite E2, <- app_assoc in Hp.
    exact (live_int _ _ _ _ HC q1' q3 c a d w Hp Hw).
Qed.
Lemma closed_cycle z q x : P (z :: q ++ [x]) -> col z = 0 -> col x = 0 -> E x z -> ~ R x z -> closed E (fun y => y ∈ z :: q ++ [x]).
Proof.
  intros Hp Cz Cx Hxz Hn a b He Ha. destruct (cycle_full z q x Hp Cz Cx Hxz Hn a b Ha He) as [Hr|[[-> ->]|[-> ->]]].
  - by apply (same_path _ a b Hp).
  - set_solver.
  - set_solver.
Qed.
End use.

(** ** links *)
Section links.
Context (m K : nat) (col : nat -> nat).
Context (Hout : forall x, col x <> 0 -> 1 <= x <= m) (HK : forall x, col x <= K) (Hall : forall c, 1 <= c <= K -> exists x, col x = c).
Context (Hpair : forall z, col z <> 0 -> exists z', z' <> z /\ forall x, col x = col z <-> x = z \/ x = z').

Definition link_rel (E : nat -> nat -> Prop) (ps : list (list nat)) : Prop :=
  length ps = K /\ NoDup (concat ps) /\
  (forall k p, ps !! k = Some p -> exists x l y, p = x :: l ++ [y] /\ col x = S k /\ col y = S k) /\
  forall x y, E x y <-> exists p, p ∈ ps /\ (next_to x y p \/ next_to y x p).

Lemma concat_uniq {A} (ps : list (list A)) : NoDup (concat ps) -> forall j k p q x, ps !! j = Some p -> ps !! k = Some q -> x ∈ p -> x ∈ q -> j = k.
Proof.
  induction ps as [|r ps IH]; intros N j k p q x Hj Hk Hp Hq; [done|]. cbn in N. apply NoDup_app in N as (N1 & N2 & N3).
  destruct j as [|j], k as [|k]; cbn in Hj, Hk.
  - done.
  - injection Hj as ->. destruct (N2 x Hp). apply elem_of_list_In, in_concat. exists q. split; [apply elem_of_list_In; by eapply elem_of_list_lookup_2|by apply elem_of_list_In].
  - injection Hk as ->. destruct (N2 x Hq). apply elem_of_list_In, in_concat. exists p. split; [apply elem_of_list_In; by eapply elem_of_list_lookup_2|by apply elem_of_list_In].
  - f_equal. by eapply IH.
Qed.
Lemma concat_nd {A} (ps : list (list A)) : (forall k p, ps !! k = Some p -> NoDup p) ->
  (forall j k p q x, ps !! j = Some p -> ps !! k = Some q -> x ∈ p -> x ∈ q -> j = k) -> NoDup (concat ps).
Proof.
  induction ps as [|r ps IH]; intros H1 H2; cbn; [constructor|]. apply NoDup_app. split_and!.
  - by apply (H1 0).
  - intros x Hx Hx'. apply elem_of_list_In, in_concat in Hx' as (q & Hq & Hx'). apply elem_of_list_In in Hq, Hx'. apply elem_of_list_lookup in Hq as [k Hk].
    by pose proof (H2 0 (S k) r q x eq_refl Hk Hx Hx').
  - apply IH; [intros k; apply (H1 (S k))|]. intros j k p q x Hj Hk Hp Hq. by injection (H2 (S j) (S k) p q x Hj Hk Hp Hq).
Qed.
Lemma in_concat_iff {A} (ps : list (list A)) x : x ∈ concat ps <-> exists k p, ps !! k = Some p /\ x ∈ p.
Proof.
  rewrite elem_of_list_In, in_concat. split.
  - intros (p & Hp & Hx). apply elem_of_list_In in Hp, Hx. apply elem_of_list_lookup in Hp as [k Hk]. by exists k, p.
  - intros (k & p & Hk & Hx). exists p. rewrite <- !elem_of_list_In. split; [by eapply elem_of_list_lookup_2|done].
Qed.
Lemma link_part {A} (ps : list (list A)) k p : NoDup (concat ps) -> ps !! k = Some p -> NoDup p.
Proof.
  revert k. induction ps as [|r ps IH]; intros [|k] N Hk; [done|done|..]; cbn in N, Hk; apply NoDup_app in N as (N1 & _ & N3).
  - by injection Hk as <-.
  - by eapply IH.
Qed.

(** a configuration in which every path is finished *)
Definition done_conf (P : list nat -> Prop) (E : nat -> nat -> Prop) : Prop :=
  conf m col P E /\ (forall p, P p -> 2 <= length p -> complete col p) /\ (forall z, col z <> 0 -> ~ P [z]).

Lemma len2 {A} (p : list A) : 2 <= length p -> exists x q y, p = x :: q ++ [y].
Proof.
  destruct p as [|x p]; cbn; [lia|]. destruct (snoc_inv p) as [->|(q & y & ->)]; cbn; [lia|]. intros _. by exists x, q, y.
Qed.

Lemma done_links P E : done_conf P E -> exists ps, link_rel E ps /\ forall x, x ∈ concat ps <-> exists y, E x y.
Proof.
  intros (HC & Hdone & Hcol).
  assert (Hk : forall c, 1 <= c <= K -> exists p, P p /\ exists x l y, p = x :: l ++ [y] /\ col x = c /\ col y = c).
  { intros c Hc. destruct (Hall c Hc) as [x Hx]. assert (col x <> 0) as Hx0 by lia. pose proof (Hout x Hx0) as Hr.
    destruct (conf_place _ _ _ _ HC x Hr) as [[l Hl]|(l1 & l2 & a & b & Hp)].
    - destruct (snoc_inv l) as [->|(k & a & ->)]; [by apply Hcol in Hl|].
      assert (complete col ((k ++ [a]) ++ [x])) as (u & q & w & Ep & Hu & Hw) by (apply Hdone; [done|rewrite !app_length; cbn; lia]).
      exists (u :: q ++ [w]). rewrite <- Ep. split; [done|]. exists u, q, w. split; [done|].
      rewrite Ep in Hl. pose proof (c_same _ _ _ _ HC _ _ _ Hl Hu Hw). rewrite app_comm_cons in Ep. apply app_inj_tail in Ep as [_ <-]. lia.
    - apply (conf_int_ne _ _ _ _ HC) in Hp as [_ Hp]. lia. }
  assert (Hch : forall j, j <= K -> exists ps, length ps = j /\ forall k p, ps !! k = Some p -> P p /\ exists x l y, p = x :: l ++ [y] /\ col x = S k /\ col y = S k).
  { induction j as [|j IH]; intros Hj; [exists []; done|]. destruct IH as (ps & Hlen & Hps); [lia|]. destruct (Hk (S j)) as (p & Hp & Hx); [lia|].
    exists (ps ++ [p]). split; [rewrite app_length; cbn; lia|]. intros k q Hq. apply lookup_app_Some in Hq as [Hq|[Hge Hq]]; [by apply Hps|].
    apply list_lookup_singleton_Some in Hq as [Ek <-]. replace k with j by lia. done. }
  destruct (Hch K (le_n _)) as (ps & Hlen & Hps).
  assert (Hdis : forall j k p q x, ps !! j = Some p -> ps !! k = Some q -> x ∈ p -> x ∈ q -> j = k).
  { intros j k p q x Hj Hkk Hp Hq. destruct (Hps _ _ Hj) as [Pp (u & l & w & -> & Cu & Cw)]. destruct (Hps _ _ Hkk) as [Pq (u' & l' & w' & -> & Cu' & Cw')].
    destruct (c_uniq _ _ _ _ HC _ _ x Pp Pq Hp Hq) as [E1|E1].
    - injection E1 as -> _. lia.
    - rewrite rev_ends in E1. injection E1 as -> _. lia. }
  assert (Hmem : forall p, P p -> 2 <= length p -> p ∈ ps \/ rev p ∈ ps).
  { intros p Hp Hlen2. destruct (Hdone p Hp Hlen2) as (u & q & w & -> & Cu & Cw). pose proof (HK u).
    destruct (lookup_lt_is_Some_2 ps (col u - 1)) as [r Hr]; [lia|]. destruct (Hps _ _ Hr) as [Pr (a & l & b & -> & Ca & Cb)].
    assert (a <> b) as Hab. { intros ->. apply (c_nd _ _ _ _ HC), NoDup_cons in Pr as [Pr _]. set_solver. }
    assert (u = a \/ u = b) as Hu. { destruct (Hpair u Cu) as (z & Hzu & Hz). pose proof (proj1 (Hz a) ltac:(lia)). pose proof (proj1 (Hz b) ltac:(lia)). lia. }
    destruct (c_uniq _ _ _ _ HC _ _ u Pr Hp) as [->|E1]; [destruct Hu; subst; set_solver|set_solver|left; by eapply elem_of_list_lookup_2|].
    right. rewrite E1, rev_involutive. by eapply elem_of_list_lookup_2. }
  exists ps. split; [split; [done|split; [|split]]|].
  - apply concat_nd; [|done]. intros k p Hp. apply (c_nd _ _ _ _ HC). by apply (Hps k).
  - intros k p Hp. by apply Hps.
  - intros x y. rewrite (c_adj _ _ _ _ HC). split.
    + intros (p & Hp & Hn). destruct (Hmem p Hp) as [Hm|Hm].
      * destruct Hn as (a & b & ->). rewrite app_length. cbn. lia.
      * exists p. tauto.
      * exists (rev p). split; [done|]. right. by apply next_rev.
    + intros (p & Hp & Hn). apply elem_of_list_lookup in Hp as [k Hkp]. destruct (Hps _ _ Hkp) as [Pp _].
      destruct Hn as [Hn|Hn]; [by exists p|]. exists (rev p). split; [by apply (c_rev _ _ _ _ HC)|by apply next_rev].
  - intros x. rewrite in_concat_iff. split.
    + intros (k & p & Hkp & Hx). destruct (Hps _ _ Hkp) as [Pp (u & q & w & -> & _)]. apply elem_of_list_split in Hx as (l1 & l2 & E1). destruct l2 as [|b l2].
      * destruct (snoc_inv l1) as [->|(l1' & a & ->)]; [by destruct q|]. exists a. apply (conf_next_end _ _ _ _ HC (l1' ++ [a])); [by rewrite <- E1|by exists l1'].
      * exists b. apply (c_adj _ _ _ _ HC). eexists. split; [exact Pp|]. by exists l1, l2.
    + intros [y (p & Hp & Hn)%(c_adj _ _ _ _ HC)]. pose proof (next_in _ _ _ Hn) as [Hx _]. destruct (Hmem p Hp) as [Hm|Hm].
      * destruct Hn as (a & b & ->). rewrite app_length. cbn. lia.
      * apply elem_of_list_lookup in Hm as [k Hkp]. by exists k, p.
      * apply elem_of_list_lookup in Hm as [k Hkp]. exists k, (rev p). split; [done|]. by apply elem_of_rev.
Qed.

Lemma links_done (E : nat -> nat -> Prop) ps : (forall x y, E x y -> 1 <= x <= m) -> link_rel E ps -> exists P, done_conf P E.
Proof.
  intros HE (Hlen & Hnd & Hends & Hadj).
  set (P := fun r => (exists p, p ∈ ps /\ (r = p \/ r = rev p)) \/ exists x, r = [x] /\ 1 <= x <= m /\ x ∉ concat ps).
  assert (Hpnd : forall p, p ∈ ps -> NoDup p). { intros p [k Hk]%elem_of_list_lookup. by eapply link_part. }
  assert (Hp2 : forall p, p ∈ ps -> exists x l y, p = x :: l ++ [y] /\ col x <> 0 /\ col y <> 0 /\ col x = col y /\ ps !! (col x - 1) = Some p).
  { intros p [k Hk]%elem_of_list_lookup. destruct (Hends _ _ Hk) as (x & l & y & -> & Hx & Hy). exists x, l, y. rewrite Hx. replace (S k - 1) with k by lia. split_and!; [done|lia|lia|lia|done]. }
  assert (Hin : forall x, x ∈ concat ps <-> exists p, p ∈ ps /\ x ∈ p).
  { intros x. rewrite in_concat_iff. split; [intros (k & p & Hk & Hx); exists p; split; [by eapply elem_of_list_lookup_2|done]|].
    intros (p & [k Hk]%elem_of_list_lookup & Hx). by exists k, p. }
  assert (Hpu : forall p q x, p ∈ ps -> q ∈ ps -> x ∈ p -> x ∈ q -> p = q).
  { intros p q x [j Hj]%elem_of_list_lookup [k Hk]%elem_of_list_lookup Hp Hq. assert (j = k) as -> by by eapply concat_uniq. congruence. }
  assert (Hr : forall p x, p ∈ ps -> x ∈ p -> 1 <= x <= m).
  { intros p x Hp Hx. destruct (Hp2 p Hp) as (u & l & w & -> & _). apply elem_of_list_split in Hx as (l1 & l2 & E1). destruct l2 as [|b l2].
    - destruct (snoc_inv l1) as [->|(l1' & a & ->)]; [by destruct l|]. apply (HE x a). apply Hadj. eexists. split; [exact Hp|]. right. rewrite E1. exists l1', []. by rewrite <- app_assoc.
    - apply (HE x b). apply Hadj. eexists. split; [exact Hp|]. left. rewrite E1. by exists l1, l2. }
  (* a colored vertex of a path is one of its ends *)
  assert (Hce : forall p z, p ∈ ps -> z ∈ p -> col z <> 0 -> exists x l y, p = x :: l ++ [y] /\ (z = x \/ z = y)).
  { intros p z Hp Hz Cz. pose proof (HK z). destruct (lookup_lt_is_Some_2 ps (col z - 1)) as [r Hrr]; [lia|].
    destruct (Hends _ _ Hrr) as (a & l & b & -> & Ca & Cb). assert (a :: l ++ [b] ∈ ps) as Hrps by by eapply elem_of_list_lookup_2.
    assert (a <> b) as Hab. { intros ->. apply Hpnd, NoDup_cons in Hrps as [Hn _]. set_solver. }
    assert (z = a \/ z = b) as Hzab. { destruct (Hpair z Cz) as (z' & Hzu & Hz'). pose proof (proj1 (Hz' a) ltac:(lia)). pose proof (proj1 (Hz' b) ltac:(lia)). lia. }
    assert (p = a :: l ++ [b]) as -> by (apply (Hpu _ _ z Hp Hrps Hz); destruct Hzab; subst; set_solver). by exists a, l, b. }
  exists P. split; [constructor|split].
  - intros p [(q & Hq & Hp)|(x & -> & Hx)]; [left; exists q; split; [done|]; destruct Hp as [->| ->]; rewrite ?rev_involutive; tauto|right; by exists x].
  - intros p [(q & Hq & [->| ->])|(x & -> & Hx)]; [by apply Hpnd|by apply NoDup_rev, Hpnd|apply NoDup_singleton].
  - intros [(q & Hq & Hp)|(x & E1 & _)]; [|done]. destruct (Hp2 q Hq) as (u & l & w & -> & _). destruct Hp as [|E1]; [done|]. rewrite rev_ends in E1. done.
  - intros x. split.
    + intros Hx. destruct (decide (x ∈ concat ps)) as [Hc|Hc]; [apply Hin in Hc as (p & Hp & Hxp); exists p; split; [left; exists p; tauto|done]|].
      exists [x]. split; [right; by exists x|set_solver].
    + intros (p & [(q & Hq & [->| ->])|(y & -> & Hy & _)] & Hx); [by eapply Hr|apply (proj1 (elem_of_rev _ _)) in Hx; by eapply Hr|]. apply elem_of_list_singleton in Hx as ->. done.
  - intros p q x Hp Hq Hxp Hxq.
    destruct Hp as [(p' & Hp' & Ep)|(y & -> & Hy & Ny)], Hq as [(q' & Hq' & Eq)|(z & -> & Hz & Nz)].
    + assert (x ∈ p') by (destruct Ep as [->| ->]; [done|by apply (proj1 (elem_of_rev _ _)) in Hxp]).
      assert (x ∈ q') by (destruct Eq as [->| ->]; [done|by apply (proj1 (elem_of_rev _ _)) in Hxq]).
      assert (p' = q') as <- by by eapply Hpu. destruct Ep as [->| ->], Eq as [->| ->]; rewrite ?rev_involutive; tauto.
    + apply elem_of_list_singleton in Hxq as ->. destruct Nz. apply Hin. exists p'. split; [done|]. destruct Ep as [->| ->]; [done|by apply (proj1 (elem_of_rev _ _)) in Hxp].
    + apply elem_of_list_singleton in Hxp as ->. destruct Ny. apply Hin. exists q'. split; [done|]. destruct Eq as [->| ->]; [done|by apply (proj1 (elem_of_rev _ _)) in Hxq].
    + apply elem_of_list_singleton in Hxp as ->. apply elem_of_list_singleton in Hxq as ->. by left.
  - intros x y. rewrite Hadj. split.
    + intros (p & Hp & [Hn|Hn]); [exists p; split; [left; exists p; tauto|done]|]. exists (rev p). split; [left; exists p; tauto|by apply next_rev].
    + intros (p & [(q & Hq & [->| ->])|(z & -> & _)] & Hn); [exists q; tauto| |by apply next_one in Hn].
      exists q. split; [done|]. right. apply next_rev in Hn. by rewrite rev_involutive in Hn.
  - intros l1 l2 x Hp Hl1 Hl2. destruct (decide (col x = 0)) as [|Cx]; [done|]. exfalso.
    assert (forall l1 l2, l1 ++ x :: l2 ∈ ps -> l1 <> [] -> l2 <> [] -> False) as Hno.
    { clear l1 l2 Hp Hl1 Hl2. intros l1 l2 Hp Hl1 Hl2. destruct (Hce _ x Hp ltac:(set_solver) Cx) as (a & l & b & E1 & Hx).
      pose proof (Hpnd _ Hp) as N. destruct Hx as [->| ->].
      - destruct (split_uniq _ _ _ [] (l ++ [b]) N) as [-> _]; [exact E1|done].
      - destruct (split_uniq _ _ _ (a :: l) [] N) as [_ ->]; [exact E1|done]. }
    destruct Hp as [(q & Hq & [<-|Eq])|(z & E1 & _)].
    + by eapply Hno.
    + apply (f_equal (@rev nat)) in Eq. rewrite rev_involutive, rev_app_distr in Eq. cbn in Eq. rewrite <- app_assoc in Eq. cbn in Eq. rewrite <- Eq in Hq.
      apply (Hno _ _ Hq); intros E1; apply (f_equal (@rev nat)) in E1; rewrite rev_involutive in E1; done.
    + destruct l1 as [|a [|c l1]]; cbn in E1; [done|..]; [injection E1 as _ E1; done|injection E1 as _ E1; done].
  - intros x l y Hp Cx Cy. destruct Hp as [(q & Hq & Ep)|(z & E1 & _)].
    + destruct (Hp2 q Hq) as (u & k & w & -> & Cu & Cw & Euw & _). destruct Ep as [Ep|Ep].
      * injection Ep as -> Ep. apply app_inj_tail in Ep as [_ ->]. done.
      * rewrite rev_ends in Ep. cbn in Ep. injection Ep as -> Ep. apply app_inj_tail in Ep as [_ ->]. done.
    + injection E1 as _ E1. by destruct l.
  - intros p [(q & Hq & Ep)|(z & -> & _)] Hl; [|cbn in Hl; lia]. destruct (Hp2 q Hq) as (u & k & w & -> & Cu & Cw & _).
    assert (complete col (u :: k ++ [w])) as Hcm by (by exists u, k, w). destruct Ep as [->| ->]; [done|by apply complete_rev].
  - intros z Cz [(q & Hq & Ep)|(x & E1 & _ & Hx)].
    + destruct (Hp2 q Hq) as (u & k & w & -> & _). destruct Ep as [Ep|Ep]; [injection Ep as _ Ep; by destruct k|].
      rewrite rev_ends in Ep. cbn in Ep. injection Ep as _ Ep. by destruct (rev k).
    + injection E1 as <-. apply Hx, Hin. pose proof (HK z). destruct (lookup_lt_is_Some_2 ps (col z - 1)) as [r Hrr]; [lia|].
      destruct (Hends _ _ Hrr) as (a & l & b & -> & Ca & Cb). assert (a :: l ++ [b] ∈ ps) as Hrps by by eapply elem_of_list_lookup_2.
      assert (a <> b) as Hab. { intros ->. apply Hpnd, NoDup_cons in Hrps as [Hn _]. set_solver. }
      assert (z = a \/ z = b) as Hzab. { destruct (Hpair z Cz) as (z' & Hzu & Hz'). pose proof (proj1 (Hz' a) ltac:(lia)). pose proof (proj1 (Hz' b) ltac:(lia)). lia. }
      eexists. split; [exact Hrps|]. destruct Hzab; subst; set_solver.
Qed.

Lemma done_good P E : done_conf P E -> pathgood m col E.
Proof.
  intros (HC & Hdone & Hcol). constructor; [constructor|..].
  - apply (conf_sym _ _ _ _ HC).
  - intros x y Cx He. assert (1 <= x <= m) as Hx. { apply (c_cov _ _ _ _ HC). apply (c_adj _ _ _ _ HC) in He as (p & Hp & Hn). exists p. split; [done|by apply next_in in Hn as [? _]]. }
    destruct (conf_place _ _ _ _ HC x Hx) as [[l Hl]|(l1 & l2 & a & b & Hp)].
    + apply (conf_next_end _ _ _ _ HC _ _ _ Hl) in He as [k ->].
      destruct (Hdone _ Hl) as (u & q & w & E1 & _ & Hw); [rewrite !app_length; cbn; lia|]. rewrite app_comm_cons in E1. apply app_inj_tail in E1 as [_ ->]. done.
    + exists a, b. split; [by eapply (conf_int_ne _ _ _ _ HC)|]. intros z. by apply (conf_next_int _ _ _ _ HC _ _ _ _ _ _ Hp).
  - intros x Hx Cx. destruct (conf_place _ _ _ _ HC x Hx) as [[l Hl]|(l1 & l2 & a & b & Hp)].
    + destruct (snoc_inv l) as [->|(k & a & ->)]; [by apply Hcol in Hl|]. exists a. intros z. rewrite (conf_next_end _ _ _ _ HC _ _ _ Hl). split.
      * intros [k' E1]. by apply app_inj_tail in E1 as [_ ->].
      * intros ->. by exists k.
    + by apply (conf_int_ne _ _ _ _ HC) in Hp as [_ ?].
  - intros S x y HS He Hx. apply (c_adj _ _ _ _ HC) in He as (p & Hp & Hn). pose proof (next_in _ _ _ Hn) as [Hxp _].
    destruct (Hdone p Hp) as (u & q & w & -> & Cu & Cw); [destruct Hn as (a & b & ->); rewrite app_length; cbn; lia|].
    exists u. split; [by apply Hout|]. split; [done|]. by eapply (conf_conn _ _ _ _ HC S _ x u HS Hp); [|set_solver|].
  - intros z z' Hz Cz Cz' Hne. apply (c_cov _ _ _ _ HC) in Hz as (p & Hp & Hz). exists (fun x => x ∈ p). split_and!; [|done|].
    + intros a b He Ha. by eapply same_path.
    + intros Hz'. apply Hne. clear Hne.
      assert (Hend : forall z, z ∈ p -> col z <> 0 -> exists l, p = l ++ [z] \/ p = z :: l).
      { intros y Hy Cy. apply elem_of_list_split in Hy as (l1 & l2 & ->). destruct l2 as [|b l2]; [exists l1; by left|]. destruct l1 as [|a l1]; [eexists; by right|].
        exfalso. apply Cy. by eapply (c_int _ _ _ _ HC _ _ _ Hp). }
      destruct (Hend z Hz Cz) as (l & Hl). destruct (Hend z' Hz' Cz') as (l' & Hl').
      destruct Hl as [->| ->], Hl' as [E1|E1].
      * by apply app_inj_tail in E1 as [_ ->].
      * destruct l as [|c l]; cbn in E1; injection E1 as -> E1; [done|]. symmetry. by apply (c_same _ _ _ _ HC z' l z).
      * destruct l' as [|c l']; cbn in E1; injection E1 as -> E1; [done|]. subst. by apply (c_same _ _ _ _ HC c l' z').
      * by injection E1 as ->.
Qed.
End links.

(** ** cycles *)
Section cycles.
Context (m : nat) (col : nat -> nat).
Definition cyc_rel (E : nat -> nat -> Prop) (c : list nat) : Prop :=
  3 <= length c /\ NoDup c /\ forall x y, E x y <-> next_to x y (c ++ take 1 c) \/ next_to y x (c ++ take 1 c).

Lemma cyc_rot (a : nat) (l : list nat) (x y : nat) : next_to x y ((a :: l) ++ take 1 (a :: l)) <-> next_to x y ((l ++ [a]) ++ take 1 (l ++ [a])).
Proof.
  destruct l as [|b l]; [done|]. cbn [take app]. rewrite take_0. rewrite next_cons.
  change (b :: (l ++ [a]) ++ [b]) with ((b :: l ++ [a]) ++ [b]). rewrite (next_app x y (b :: l ++ [a]) [b]). change (b :: l ++ [a]) with ((b :: l) ++ [a]).
  split.
  - intros [[-> [l' E1]]|H]; [|by left]. right; right. injection E1 as -> _. by exists (y :: l), [].
  - intros [H|[H|(l' & k' & E1 & E2)]]; [by right|by apply next_one in H|]. left. apply app_inj_tail in E1 as [_ ->]. injection E2 as -> _. split; [done|by eexists].
Qed.
Lemma cyc_rot_at E c x : cyc_rel E c -> x ∈ c -> exists l, cyc_rel E (x :: l) /\ forall y, y ∈ c <-> y ∈ x :: l.
Proof.
  intros HE Hx. apply elem_of_list_split in Hx as (l1 & l2 & ->). revert l2 HE. induction l1 as [|a l1 IH]; intros l2 HE; [by exists l2|].
  destruct (IH (l2 ++ [a])) as (l & Hl & Hy).
  - destruct HE as (H1 & H2 & H3). split; [|split].
    + rewrite app_length in *. cbn in *. rewrite app_length. cbn. lia.
    + replace (l1 ++ x :: l2 ++ [a]) with ((l1 ++ x :: l2) ++ [a]) by (by rewrite <- app_assoc). cbn in H2. apply NoDup_cons in H2 as [H2 H2'].
      apply NoDup_app. split; [done|]. split; [set_solver|apply NoDup_singleton].
    + intros y z. rewrite H3. change ((a :: l1) ++ x :: l2) with (a :: (l1 ++ x :: l2)). rewrite (cyc_rot a _ y z), (cyc_rot a _ z y).
      replace ((l1 ++ x :: l2) ++ [a]) with (l1 ++ x :: l2 ++ [a]) by (by rewrite <- app_assoc). done.
  - exists l. split; [done|]. intros y. rewrite <- Hy. set_solver.
Qed.
Lemma cyc_in E c x y : cyc_rel E c -> E x y -> x ∈ c.
Proof.
  intros (H1 & H2 & H3) He. apply H3 in He. assert (x ∈ c ++ take 1 c) as Hx by (destruct He as [H|H]; by apply next_in in H as [? ?]).
  apply elem_of_app in Hx as [Hx|Hx]; [done|]. destruct c; [done|]. cbn in Hx. rewrite take_0 in Hx. set_solver.
Qed.

Lemma cycle_good E c : (forall x, col x = 0) -> cyc_rel E c -> cyclegood m col E.
Proof.
  intros Hcol HE. constructor; [constructor|..].
  - intros x y He. destruct HE as (H1 & H2 & H3). apply H3 in He. apply H3. tauto.
  - intros x y _ He. destruct (cyc_rot_at _ _ x HE (cyc_in _ _ _ _ HE He)) as (l & (H1 & H2 & H3) & _).
    cbn [take] in *. rewrite take_0 in *. destruct l as [|a l]; [cbn in H1; lia|]. destruct (snoc_inv l) as [->|(l' & b & ->)]; [cbn in H1; lia|].
    exists a, b. apply NoDup_cons in H2 as [Hx H2]. apply NoDup_cons in H2 as [Ha H2]. split; [set_solver|]. intros z. rewrite H3. split.
    + intros [Hn|Hn].
      * cbn [app] in Hn. apply next_cons in Hn as [[_ [k E1]]|Hn]; [injection E1 as -> _; by left|].
        rewrite app_comm_cons in Hn. apply next_app in Hn as [Hn|[Hn|(k & k' & E1 & E2)]].
        -- apply next_in in Hn as [Hn _]. by destruct Hx.
        -- by apply next_one in Hn.
        -- rewrite app_comm_cons in E1. apply app_inj_tail in E1 as [_ E1]. subst. set_solver.
      * cbn [app] in Hn. apply next_cons in Hn as [[-> [k E1]]|Hn].
        -- injection E1 as -> _. set_solver.
        -- rewrite app_comm_cons in Hn. apply next_app in Hn as [Hn|[Hn|(k & k' & E1 & E2)]].
           ++ apply next_in in Hn as [_ Hn]. by destruct Hx.
           ++ by apply next_one in Hn.
           ++ rewrite app_comm_cons in E1. apply app_inj_tail in E1 as [_ E1]. by right.
    + intros [->| ->]; [left; by exists [], (((l' ++ [b]) ++ [x]))|]. right. exists (x :: a :: l'), []. cbn. by rewrite <- app_assoc.
  - intros x _ Cx. by rewrite Hcol in Cx.
  - intros S x y x' y' HS He Hx He'. pose proof (cyc_in _ _ _ _ HE He) as Hxc. pose proof (cyc_in _ _ _ _ HE He') as Hxc'.
    destruct (cyc_rot_at _ _ x HE Hxc) as (l & (H1 & H2 & H3) & Hy). apply Hy in Hxc'.
    assert (forall l1 l2 z, x :: l = l1 ++ z :: l2 -> S z) as Hall.
    { induction l1 as [|a l1 IH] using rev_ind; intros l2 z E1.
      - cbn in E1. by injection E1 as <- _.
      - rewrite <- app_assoc in E1. cbn in E1. apply (HS a); [|by eapply IH]. apply H3. left. rewrite E1. exists l1, (l2 ++ take 1 (l1 ++ a :: z :: l2)).
        rewrite <- app_assoc. done. }
    apply elem_of_list_split in Hxc' as (l1 & l2 & E1). by eapply Hall.
  - destruct HE as (H1 & H2 & H3). destruct c as [|a [|b c]]; [cbn in H1; lia|cbn in H1; lia|]. exists a, b. apply H3. left. by exists [], (c ++ [a]).
Qed.

(** a configuration with a single path of at least three vertices, closed up by one more edge *)
Lemma close_cycle P R E z q x : conf m col P R -> P (z :: q ++ [x]) -> q <> [] ->
  (forall p, P p -> 2 <= length p -> x ∈ p) -> (forall a b, E a b <-> R a b \/ (a = x /\ b = z) \/ (a = z /\ b = x)) ->
  cyc_rel E (z :: q ++ [x]).
Proof.
  intros HC Hp Hq Hone HE. split; [|split].
  - destruct q; [done|]. cbn. rewrite app_length. cbn. lia.
  - by apply (c_nd _ _ _ _ HC).
  - intros a b. rewrite HE. cbn [take]. rewrite take_0.
    assert (HN : forall a b, next_to a b ((z :: q ++ [x]) ++ [z]) <-> next_to a b (z :: q ++ [x]) \/ (a = x /\ b = z)).
    { intros a' b'. rewrite next_app. split.
      - intros [H|[H|(k & k' & E1 & E2)]]; [by left|by apply next_one in H|]. right. rewrite app_comm_cons in E1. apply app_inj_tail in E1 as [_ ->]. by injection E2 as ->.
      - intros [H|[-> ->]]; [by left|]. right; right. by exists (z :: q), []. }
    rewrite !HN. rewrite (c_adj _ _ _ _ HC). split.
    + intros [(p & Hpp & Hn)|H]; [|tauto]. assert (x ∈ p) as Hx. { apply Hone; [done|]. destruct Hn as (l1 & l2 & ->). rewrite app_length. cbn. lia. }
      destruct (c_uniq _ _ _ _ HC _ _ x Hp Hpp) as [->| ->]; [set_solver|done|tauto|]. apply next_rev in Hn. rewrite rev_involutive in Hn. tauto.
    + intros [[Hn|H]|[Hn|H]]; [|tauto| |tauto].
      * left. by exists (z :: q ++ [x]).
      * left. exists (rev (z :: q ++ [x])). split; [by apply (c_rev _ _ _ _ HC)|by apply next_rev].
Qed.
End cycles.
