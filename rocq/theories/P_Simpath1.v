(** Systems of vertex-disjoint paths. *)
From stdpp Require Import strings.
From Verif Require Import Base Sem M_Graph S_Simpath.
Local Open Scope nat_scope.

Lemma next_nil (x y : nat) : ~ next_to x y [].
Proof. intros (l1 & l2 & E). by destruct l1. Qed.
Lemma next_one (x y a : nat) : ~ next_to x y [a].
Proof. intros (l1 & l2 & E). destruct l1 as [|b [|c l1]]; done. Qed.
Lemma next_cons (x y a : nat) (l : list nat) : next_to x y (a :: l) <-> (x = a /\ exists l', l = y :: l') \/ next_to x y l.
Proof.
  split.
  - intros (l1 & l2 & E). destruct l1 as [|b l1]; cbn in E; injection E as -> ->.
    + left. split; [done|by exists l2].
    + right. by exists l1, l2.
  - intros [[-> [l' ->]]|(l1 & l2 & ->)]; [by exists [], l'|by exists (a :: l1), l2].
Qed.
Lemma next_app (x y : nat) (l k : list nat) : next_to x y (l ++ k) <->
  next_to x y l \/ next_to x y k \/ exists l' k', l = l' ++ [x] /\ k = y :: k'.
Proof.
  induction l as [|a l IH]; cbn [app].
  - split; [by right; left|]. intros [H|[H|(l' & k' & E & _)]]; [by apply next_nil in H|done|by destruct l'].
  - rewrite !next_cons, IH. split.
    + intros [[-> [l' E]]|[H|[H|(l' & k' & -> & ->)]]]; [|by left; right|by right; left|].
      * destruct l as [|b l]; cbn in E.
        -- right; right. exists [], l'. done.
        -- injection E as -> E. left; left. split; [done|by exists l].
      * right; right. by exists (a :: l'), k'.
    + intros [[[-> [l' ->]]|H]|[H|(l' & k' & E & ->)]]; [|by right; left|by right; right; left|].
      * left. split; [done|by eexists].
      * destruct l' as [|b l']; cbn in E; injection E as -> ->; [left; split; [done|by eexists]|].
        right; right; right. by exists l', k'.
Qed.
Lemma next_rev (x y : nat) (l : list nat) : next_to x y l -> next_to y x (rev l).
Proof. intros (l1 & l2 & ->). exists (rev l2), (rev l1). rewrite rev_app_distr. cbn. rewrite <- !app_assoc. done. Qed.
Lemma next_in (x y : nat) (l : list nat) : next_to x y l -> x ∈ l /\ y ∈ l.
Proof. intros (l1 & l2 & ->). set_solver. Qed.
Lemma rev_snoc {A} (l : list A) x : rev (l ++ [x]) = x :: rev l.
Proof. rewrite rev_app_distr. done. Qed.
Lemma elem_of_rev (x : nat) l : x ∈ rev l <-> x ∈ l.
Proof. rewrite !elem_of_list_In. symmetry. apply in_rev. Qed.
Lemma NoDup_rev (l : list nat) : NoDup l -> NoDup (rev l).
Proof. rewrite !NoDup_ListNoDup. apply List.NoDup_rev. Qed.
Lemma snoc_inv {A} (l : list A) : l = [] \/ exists k x, l = k ++ [x].
Proof. induction l using rev_ind; [by left|right; by eexists _, _]. Qed.

(** what follows an element of a duplicate-free list *)
Lemma next_fun (x y z : nat) (l : list nat) : NoDup l -> next_to x y l -> next_to x z l -> y = z.
Proof.
  intros Hnd (l1 & l2 & ->) (k1 & k2 & E).
  assert (forall (l1 k1 : list nat) s t, l1 ++ x :: s = k1 ++ x :: t -> NoDup (l1 ++ x :: s) -> l1 = k1) as H.
  { induction l0 as [|a l0 IH]; intros [|b k0] s t E' N; [done| | |].
    - injection E' as -> E'. cbn in N. apply NoDup_cons in N as [N _]. rewrite E' in N. destruct N. set_solver.
    - injection E' as -> E'. cbn in N. apply NoDup_cons in N as [N _]. destruct N. set_solver.
    - injection E' as -> E'. cbn in N. apply NoDup_cons in N as [_ N]. f_equal. by eapply IH. }
  pose proof (H _ _ _ _ E Hnd) as <-. apply app_inv_head in E. congruence.
Qed.
Lemma next_last (x y : nat) (l : list nat) : NoDup (l ++ [x]) -> ~ next_to x y (l ++ [x]).
Proof.
  intros Hnd (l1 & l2 & E). destruct (snoc_inv (y :: l2)) as [|(k & z & E2)]; [done|].
  rewrite E2 in E. replace (l1 ++ x :: k ++ [z]) with ((l1 ++ x :: k) ++ [z]) in E by (by rewrite <- app_assoc).
  apply app_inj_tail in E as [-> ->]. apply NoDup_app in Hnd as (_ & Hnd & _). apply (Hnd z); set_solver.
Qed.

Section conf.
Context (m : nat) (col : nat -> nat).

(** [P] holds of the paths (in both directions) that the edges of [R] form, single vertices included;
    colored vertices are ends of their paths *)
Record conf (P : list nat -> Prop) (R : nat -> nat -> Prop) : Prop := {
  c_rev : forall p, P p -> P (rev p);
  c_nd : forall p, P p -> NoDup p;
  c_ne : ~ P [];
  c_cov : forall x, 1 <= x <= m <-> exists p, P p /\ x ∈ p;
  c_uniq : forall p q x, P p -> P q -> x ∈ p -> x ∈ q -> q = p \/ q = rev p;
  c_adj : forall x y, R x y <-> exists p, P p /\ next_to x y p;
  c_int : forall l1 l2 x, P (l1 ++ x :: l2) -> l1 <> [] -> l2 <> [] -> col x = 0;
  c_same : forall x l y, P (x :: l ++ [y]) -> col x <> 0 -> col y <> 0 -> col x = col y
}.

(** value stored for an end whose other end is z *)
Definition endv (z : nat) : Z := if (0 <? col z)%nat then (- Z.of_nat (col z))%Z else Z.of_nat z.
Definition live (P : list nat -> Prop) (x : nat) (w : Z) : Prop :=
  exists l, P (l ++ [x]) /\ (l = [] \/ col x = 0) /\ w = endv (hd x l).

Lemma conf_ext P R R' : (forall x y, R x y <-> R' x y) -> conf P R -> conf P R'.
Proof. intros E []. constructor; try done. intros x y. by rewrite <- E. Qed.

Section facts.
Context (P : list nat -> Prop) (R : nat -> nat -> Prop) (HC : conf P R).

Lemma conf_rev p : P (rev p) -> P p.
Proof. intros H. apply (c_rev _ _ HC) in H. by rewrite rev_involutive in H. Qed.
Lemma conf_sym x y : R x y -> R y x.
Proof. rewrite !(c_adj _ _ HC). intros (p & Hp & Hn). exists (rev p). split; [by apply (c_rev _ _ HC)|by apply next_rev]. Qed.
Lemma conf_range x p : P p -> x ∈ p -> 1 <= x <= m.
Proof. intros Hp Hx. apply (c_cov _ _ HC). by exists p. Qed.
Lemma conf_snoc l l' x : P (l ++ [x]) -> P (l' ++ [x]) -> l = l'.
Proof.
  intros H1 H2. destruct (c_uniq _ _ HC _ _ x H1 H2) as [E|E]; [set_solver..| |].
  - by apply app_inj_tail in E as [-> _].
  - rewrite rev_snoc in E. destruct l' as [|a l'].
    + injection E as E. destruct (snoc_inv l) as [->|(k & z & ->)]; [done|]. by rewrite rev_snoc in E.
    + injection E as -> E. apply (c_nd _ _ HC), NoDup_cons in H2 as [H2 _]. destruct H2; set_solver.
Qed.
Lemma live_fun x w w' : live P x w -> live P x w' -> w = w'.
Proof. intros (l & H1 & _ & ->) (l' & H2 & _ & ->). by rewrite (conf_snoc _ _ _ H1 H2). Qed.

(** neighbours *)
Lemma conf_next_end l x y : P (l ++ [x]) -> R x y <-> exists k, l = k ++ [y].
Proof.
  intros Hp. rewrite (c_adj _ _ HC). split.
  - intros (q & Hq & Hn). destruct (c_uniq _ _ HC _ _ x Hp Hq) as [->| ->]; [set_solver|exact (proj1 (next_in _ _ _ Hn))| |].
    + destruct (next_last x y l); [by apply (c_nd _ _ HC)|done].
    + rewrite rev_snoc in Hn, Hq. apply next_cons in Hn as [[_ [l' E]]|Hn].
      * exists (rev l'). apply (f_equal (@rev nat)) in E. rewrite rev_involutive in E. by rewrite E.
      * apply (c_nd _ _ HC), NoDup_cons in Hq as [Hq _]. by apply next_in in Hn as [? _].
  - intros [k ->]. exists (rev ((k ++ [y]) ++ [x])). split; [by apply (c_rev _ _ HC)|]. rewrite !rev_snoc. by exists [], (rev k).
Qed.
Lemma conf_next_one x y : P [x] -> ~ R x y.
Proof. intros H Hr. apply (conf_next_end [] x y H) in Hr as [k E]. by destruct k. Qed.
Lemma conf_next_int l1 l2 a x b y : P (l1 ++ a :: x :: b :: l2) -> R x y <-> y = a \/ y = b.
Proof.
  intros Hp. pose proof (c_nd _ _ HC _ Hp) as Hnd. rewrite (c_adj _ _ HC). split.
  - intros (q & Hq & Hn). destruct (c_uniq _ _ HC _ _ x Hp Hq) as [->| ->]; [set_solver|exact (proj1 (next_in _ _ _ Hn))| |].
    + right. eapply (next_fun x); [done|done|]. exists (l1 ++ [a]), l2. by rewrite <- app_assoc.
    + left. eapply (next_fun x); [by apply (c_nd _ _ HC)|done|]. exists (rev l2 ++ [b]), (rev l1).
      rewrite rev_app_distr. cbn. rewrite <- !app_assoc. done.
  - intros [->| ->].
    + exists (rev (l1 ++ a :: x :: b :: l2)). split; [by apply (c_rev _ _ HC)|]. apply next_rev. by exists l1, (b :: l2).
    + exists (l1 ++ a :: x :: b :: l2). split; [done|]. exists (l1 ++ [a]), l2. by rewrite <- app_assoc.
Qed.
Lemma conf_int_ne l1 l2 a x b : P (l1 ++ a :: x :: b :: l2) -> a <> b /\ col x = 0.
Proof.
  intros Hp. split.
  - intros ->. apply (c_nd _ _ HC) in Hp. apply NoDup_app in Hp as (_ & _ & Hp). apply NoDup_cons in Hp as [Hp _]. set_solver.
  - eapply (c_int _ _ HC (l1 ++ [a]) (b :: l2)); [by rewrite <- app_assoc|by destruct l1|done].
Qed.

(** where a vertex can be *)
Lemma conf_place x : 1 <= x <= m ->
  (exists l, P (l ++ [x])) \/ (exists l1 l2 a b, P (l1 ++ a :: x :: b :: l2)).
Proof.
  intros (p & Hp & Hx)%(c_cov _ _ HC). apply elem_of_list_split in Hx as (l1 & l2 & ->).
  destruct l2 as [|b l2]; [left; by exists l1|]. destruct (snoc_inv l1) as [->|(k & a & ->)].
  - left. exists (rev (b :: l2)). apply (c_rev _ _ HC) in Hp. exact Hp.
  - right. exists k, l2, a, b. by rewrite <- app_assoc in Hp.
Qed.
Lemma not_live x : 1 <= x <= m -> ~ (exists w, live P x w) ->
  (exists l a, P (l ++ [a; x]) /\ col x <> 0) \/ (exists l1 l2 a b, P (l1 ++ a :: x :: b :: l2)).
Proof.
  intros Hx Hn. destruct (conf_place x Hx) as [[l Hl]|H]; [|by right]. left.
  destruct (snoc_inv l) as [->|(k & a & ->)]; [destruct Hn; eexists; exists []; split; [done|]; split; [by left|done]|].
  exists k, a. rewrite <- app_assoc in Hl. split; [done|]. intros E. apply Hn. eexists. exists (k ++ [a]). split; [by rewrite <- app_assoc|]. split; [by right|done].
Qed.
Lemma live_range x w : live P x w -> 1 <= x <= m.
Proof. intros (l & H & _). eapply conf_range; [done|set_solver]. Qed.
Lemma live_int l1 l2 a x b w : P (l1 ++ a :: x :: b :: l2) -> ~ live P x w.
Proof.
  intros Hp (l & Hl & _). pose proof (proj2 (conf_next_int _ _ _ _ _ a Hp) (or_introl eq_refl)) as Ra.
  pose proof (proj2 (conf_next_int _ _ _ _ _ b Hp) (or_intror eq_refl)) as Rb.
  apply (conf_next_end _ _ _ Hl) in Ra as [k ->]. apply (conf_next_end _ _ _ Hl) in Rb as [k' E]. apply app_inj_tail in E as [_ ->].
  by apply conf_int_ne in Hp as [? _].
Qed.
Lemma endv_pos z : (0 < endv z)%Z -> col z = 0 /\ endv z = Z.of_nat z.
Proof. unfold endv. destruct (Nat.ltb_spec 0 (col z)); lia. Qed.
Lemma endv_neg z : (endv z < 0)%Z -> col z <> 0 /\ endv z = (- Z.of_nat (col z))%Z.
Proof. unfold endv. destruct (Nat.ltb_spec 0 (col z)); lia. Qed.
Lemma live_nz x w : live P x w -> w <> 0%Z.
Proof.
  intros Hl. pose proof (live_range _ _ Hl) as Hr. destruct Hl as (l & Hp & _ & ->).
  assert (1 <= hd x l <= m). { eapply conf_range; [exact Hp|]. destruct l; cbn; set_solver. }
  unfold endv. destruct (Nat.ltb_spec 0 (col (hd x l))); lia.
Qed.
(** a live vertex with mate z > 0 : the path from z to x, both uncolored unless single *)
Lemma live_pos x z : live P x (Z.of_nat z) -> col z = 0 /\ ((z = x /\ P [x]) \/ (z <> x /\ col x = 0 /\ exists l, P (z :: l ++ [x]))).
Proof.
  intros Hl. pose proof (live_nz _ _ Hl) as Hnz. destruct Hl as (l & Hp & Hc & E).
  destruct (endv_pos (hd x l)) as [E1 E2]; [lia|]. rewrite E2 in E. apply Nat2Z.inj in E. subst z. split; [done|].
  destruct l as [|a l]; cbn in *; [by left|]. right. destruct Hc as [?|Hc]; [done|]. split; [|split; [done|by exists l]].
  intros ->. apply (c_nd _ _ HC), NoDup_cons in Hp as [Hp _]. set_solver.
Qed.
Lemma live_neg x w : live P x w -> (w < 0)%Z -> exists l, P (l ++ [x]) /\ (l = [] \/ col x = 0) /\ col (hd x l) <> 0 /\ w = (- Z.of_nat (col (hd x l)))%Z.
Proof. intros (l & Hp & Hc & ->) Hw. apply endv_neg in Hw as [H1 H2]. by exists l. Qed.
Lemma live_sym x z : live P x (Z.of_nat z) -> col x = 0 -> live P z (Z.of_nat x).
Proof.
  intros Hl Hx. destruct (live_pos _ _ Hl) as [Hz [[-> H]|(Hne & _ & l & H)]]; [done|].
  exists (x :: rev l). split; [apply (c_rev _ _ HC) in H; rewrite app_comm_cons, rev_snoc in H; exact H|]. split; [by right|].
  cbn. unfold endv. by rewrite Hx.
Qed.

(** a set closed under R contains a whole path or nothing of it *)
Lemma conf_conn (S : nat -> Prop) p x y : (forall a b, R a b -> S a -> S b) -> P p -> x ∈ p -> y ∈ p -> S x -> S y.
Proof.
  intros HS Hp Hx Hy H.
  assert (forall q a, P q -> a ∈ q -> S a -> forall b, b ∈ q -> (exists l1 l2 l3, q = l1 ++ a :: l2 ++ b :: l3) -> S b) as Hfwd.
  { intros q a Hq _ Ha b _ (l1 & l2 & l3 & ->). revert l1 a Ha Hq. induction l2 as [|c l2 IH]; intros l1 a Ha Hq.
    - apply (HS a); [|done]. apply (c_adj _ _ HC). eexists. split; [exact Hq|]. by exists l1, l3.
    - apply (IH (l1 ++ [a]) c); [|by rewrite <- app_assoc]. apply (HS a); [|done]. apply (c_adj _ _ HC). eexists. split; [exact Hq|].
      by exists l1, (l2 ++ b :: l3). }
  apply elem_of_list_split in Hx as (l1 & l2 & ->). assert (Hy' := Hy). apply elem_of_app in Hy as [Hy|Hy]; [|apply elem_of_cons in Hy as [->|Hy]; [done|]].
  - apply elem_of_list_split in Hy as (k1 & k2 & ->). apply (Hfwd (rev ((k1 ++ y :: k2) ++ x :: l2)) x).
    + by apply (c_rev _ _ HC).
    + apply elem_of_rev. set_solver.
    + done.
    + by apply elem_of_rev.
    + exists (rev l2), (rev k2), (rev k1). rewrite !rev_app_distr. cbn. rewrite <- !app_assoc. cbn. rewrite <- ?app_assoc. done.
  - apply elem_of_list_split in Hy as (k1 & k2 & ->). apply (Hfwd _ x Hp); [set_solver|done|done|]. by exists l1, k1, k2.
Qed.
End facts.
End conf.
