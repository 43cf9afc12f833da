(** PathZddByStdMap: the map describes the paths formed by the chosen and the virtual edges. *)
From stdpp Require Import strings gmap.
From Verif Require Import Base Sem P_Size M_Graph S_Graph P_Front M_Degree S_Degree P_Degree S_Simpath P_Simpath1 P_Simpath2 P_Simpath3 M_PathMap S_PathMap.
Local Open Scope nat_scope.

Section pm.
Context (g : graph).
Let es := g_edgeInfo g.
Let m := vertexSize g.
Let n := length es.
Let vm := virtualMate g.
Context (HN : numbering_ok m es) (HL : loop_free g).
Context (Hvm : forall x, vm x <> 0 -> 1 <= x <= m /\ 1 <= vm x <= m /\ vm x <> x /\ vm (vm x) = x).
Notation V0 := (V0 m es).
Definition nocol (x : nat) : nat := 0.
Notation conf := (conf (m + m) nocol).

(** the chosen edges among the first i *)
Definition E (ch : nat -> bool) (i : nat) (x y : nat) : Prop :=
  exists a e, a < i /\ es !! a = Some e /\ ch a = true /\ joins e x y.
Definition F (ch : nat -> bool) (i : nat) (x y : nat) : Prop := E ch i x y \/ virtual_half g x y.

(** ** edges *)
Lemma joins_sym e x y : joins e x y -> joins e y x.
Proof. unfold joins. tauto. Qed.
Lemma edge_joins e : joins e (e_v1 e) (e_v2 e).
Proof. by left. Qed.
Lemma edge_ends i e : es !! i = Some e -> V0 i <= e_v1 e /\ e_v1 e < e_v2 e /\ e_v2 e <= m /\ 1 <= V0 i.
Proof.
  intros He. destruct (no_range _ _ HN _ _ He) as (R1 & R2 & R3 & R4). pose proof (HL _ _ He). rewrite (V0_at m es i e He). lia.
Qed.
Lemma joins_inc a e x y : es !! a = Some e -> joins e x y -> incident es a x.
Proof. intros He H. exists e. split; [done|]. unfold joins in H. tauto. Qed.
Lemma joins_same a b e f x y : es !! a = Some e -> es !! b = Some f -> joins e x y -> joins f x y -> a = b.
Proof.
  intros He Hf H1 H2. pose proof (no_range _ _ HN _ _ He) as (_ & _ & R1 & _). pose proof (no_range _ _ HN _ _ Hf) as (_ & _ & R2 & _).
  apply (no_simple _ _ HN a b e f He Hf); unfold joins in *; lia.
Qed.
Lemma joins_range a e x y : es !! a = Some e -> joins e x y -> 1 <= x <= m /\ 1 <= y <= m /\ x <> y.
Proof. intros He Hj. destruct (edge_ends _ _ He). unfold joins in Hj. lia. Qed.
Lemma half_sym x y : virtual_half g x y -> virtual_half g y x.
Proof. intros (s & Hs & H). exists s. split; [done|]. tauto. Qed.
Lemma half_range x y : virtual_half g x y -> (1 <= x <= m /\ m < y <= m + m) \/ (1 <= y <= m /\ m < x <= m + m).
Proof. intros (s & Hs & H). destruct (Hvm s Hs) as (? & ? & ? & ?). unfold mid in H. fold m vm in H. lia. Qed.
Lemma F_mono ch i j x y : i <= j -> F ch i x y -> F ch j x y.
Proof. intros Hij [(a & e & Ha & H)|H]; [left|by right]. exists a, e. split; [lia|done]. Qed.
Lemma F_S ch i e x y : es !! i = Some e -> F ch (S i) x y <-> F ch i x y \/ (ch i = true /\ joins e x y).
Proof.
  intros He. split.
  - intros [(a & f & Ha & Hf & Hc & Hj)|H]; [|by left; right]. destruct (decide (a = i)) as [->|]; [right; split; [done|congruence]|].
    left. left. exists a, f. split; [lia|done].
  - intros [H|[Hc Hj]]; [eapply F_mono; [|done]; lia|]. left. exists i, e. split; [lia|done].
Qed.
Lemma F_new ch i e x y : es !! i = Some e -> joins e x y -> ~ F ch i x y.
Proof.
  intros He Hj [(a & f & Ha & Hf & _ & Hj')|H]; [pose proof (joins_same _ _ _ _ _ _ He Hf Hj Hj'); lia|].
  pose proof (joins_range _ _ _ _ He Hj). pose proof (half_range _ _ H). lia.
Qed.
Lemma F_ext ch ch' i x y : (forall a, a < i -> ch a = ch' a) -> F ch i x y <-> F ch' i x y.
Proof.
  intros H. split; (intros [(a & e & Ha & He & Hc & Hj)|Hh]; [left|by right]); exists a, e; (split_and!; [done|done| |done]); [by rewrite <- H|by rewrite H].
Qed.
Lemma F_at ch i e x y : es !! i = Some e -> ch i = true -> joins e x y -> F ch n x y.
Proof. intros He Hc Hj. left. exists i, e. split; [by eapply lookup_lt_Some|done]. Qed.
Lemma F_later ch i x y : (forall b, ~ later es i x b) -> F ch n x y -> F ch (S i) x y.
Proof.
  intros Hl [(a & f & Ha & Hf & Hc & Hj)|H]; [left|by right]. exists a, f. split; [|done].
  destruct (decide (a < S i)) as [|Hge]; [done|]. destruct (Hl a). split; [lia|]. by eapply joins_inc.
Qed.

(** ** the invariant *)
(** what the map says about x *)
Definition tells (P : list nat -> Prop) (x : nat) (o : option nat) : Prop :=
  match o with
  | None => P [x]
  | Some z => if decide (z = 0) then exists l1 a b l2, P (l1 ++ a :: x :: b :: l2) else exists l, P (z :: l ++ [x])
  end.
Record PInv (ch : nat -> bool) (i : nat) (mt : gmap nat nat) (P : list nat -> Prop) : Prop := {
  pi_conf : conf P (F ch i);
  pi_at : forall x, V0 i <= x <= m -> tells P x (mt !! x);
  pi_out : forall x, ~ (V0 i <= x <= m) -> mt !! x = None;
  pi_left : forall x l a, 1 <= x < V0 i -> ~ P (l ++ [a; x])
}.
Lemma PInv_ext ch ch' i mt P : (forall a, a < i -> ch a = ch' a) -> PInv ch i mt P -> PInv ch' i mt P.
Proof. intros H []. constructor; try done. eapply conf_ext; [|done]. intros x y. by apply F_ext. Qed.

Section facts.
Context (ch : nat -> bool) (i : nat) (P : list nat -> Prop) (HC : conf P (F ch i)).
Lemma int_not_end l1 l2 a b x l c : P (l1 ++ a :: x :: b :: l2) -> ~ P (l ++ [c; x]).
Proof.
  intros H1 H2. apply (live_int _ _ _ _ HC _ _ _ _ _ (endv nocol (hd x (l ++ [c]))) H1). exists (l ++ [c]). split; [by rewrite <- app_assoc|]. split; [by right|done].
Qed.
Lemma int_not_one l1 l2 a b x : P (l1 ++ a :: x :: b :: l2) -> ~ P [x].
Proof. intros H1 H2. apply (live_int _ _ _ _ HC _ _ _ _ _ (endv nocol x) H1). exists []. split; [done|]. split; [by right|done]. Qed.
Lemma one_not_end x l c : P [x] -> ~ P (l ++ [c; x]).
Proof.
  intros H1 H2. pose proof (conf_snoc _ _ _ _ HC [] (l ++ [c]) x H1) as H. rewrite <- app_assoc in H. specialize (H H2). by destruct l.
Qed.
Lemma end_shape (z x : nat) l : exists l' c, z :: l ++ [x] = l' ++ [c; x].
Proof. destruct (snoc_inv (z :: l)) as [|(k & c & E1)]; [done|]. exists k, c. rewrite app_comm_cons, E1, <- app_assoc. done. Qed.
Lemma tells_fun x o o' : tells P x o -> tells P x o' -> o = o'.
Proof.
  intros H1 H2. destruct o as [z|], o' as [z'|]; cbn in *; [| | |done].
  - destruct (decide (z = 0)) as [->|], (decide (z' = 0)) as [->|]; [done| | |].
    + destruct H1 as (l1 & a & b & l2 & H1), H2 as (l & H2). destruct (end_shape z' x l) as (l' & c & E1). rewrite E1 in H2. by destruct (int_not_end _ _ _ _ _ _ _ H1 H2).
    + destruct H2 as (l1 & a & b & l2 & H2), H1 as (l & H1). destruct (end_shape z x l) as (l' & c & E1). rewrite E1 in H1. by destruct (int_not_end _ _ _ _ _ _ _ H2 H1).
    + destruct H1 as (l & H1), H2 as (l' & H2). pose proof (conf_snoc _ _ _ _ HC (z :: l) (z' :: l') x H1 H2) as E1. by injection E1 as ->.
  - destruct (decide (z = 0)) as [->|].
    + destruct H1 as (l1 & a & b & l2 & H1). by destruct (int_not_one _ _ _ _ _ H1).
    + destruct H1 as (l & H1). destruct (end_shape z x l) as (l' & c & E1). rewrite E1 in H1. by destruct (one_not_end _ _ _ H2 H1).
  - destruct (decide (z' = 0)) as [->|].
    + destruct H2 as (l1 & a & b & l2 & H2). by destruct (int_not_one _ _ _ _ _ H2).
    + destruct H2 as (l & H2). destruct (end_shape z' x l) as (l' & c & E1). rewrite E1 in H2. by destruct (one_not_end _ _ _ H1 H2).
Qed.
(** the ends of paths of two or more vertices are vertices of the graph *)
Lemma end_real l c x : P (l ++ [c; x]) -> 1 <= x <= m.
Proof.
  intros Hp. assert (HP : P ((l ++ [c]) ++ [x])) by (by rewrite <- app_assoc).
  assert (F ch i x c) as [(a & e & _ & He & _ & Hj)|Hh] by (apply (conf_next_end _ _ _ _ HC _ _ _ HP); by exists l).
  - destruct (joins_range _ _ _ _ He Hj). lia.
  - destruct Hh as (s & Hs & [[-> ->]|[-> ->]]); [by destruct (Hvm s Hs)|]. exfalso. destruct (Hvm s Hs) as (R1 & R2 & R3 & R4).
    assert (F ch i (mid g s) s) as F1 by (right; exists s; split; [done|tauto]).
    assert (F ch i (mid g s) (vm s)) as F2.
    { right. exists (vm s). split; [fold vm; lia|]. right. split; [|done]. unfold mid. fold vm. rewrite R4. lia. }
    apply (conf_next_end _ _ _ _ HC _ _ _ HP) in F1 as [k1 E1], F2 as [k2 E2]. apply app_inj_tail in E1 as [_ E1], E2 as [_ E2]. congruence.
Qed.
Lemma hd_real l c x : P (x :: c :: l) -> 1 <= x <= m.
Proof. intros Hp. apply (c_rev _ _ _ _ HC) in Hp. cbn in Hp. rewrite <- app_assoc in Hp. by eapply end_real. Qed.
End facts.

(** ** the root *)
Definition P0 (p : list nat) : Prop :=
  (exists s, vm s <> 0 /\ p = [s; mid g s; vm s]) \/
  (exists x, 1 <= x <= m + m /\ p = [x] /\ vm x = 0 /\ forall s, vm s <> 0 -> x <> mid g s).
Lemma mid_vm s : vm s <> 0 -> mid g (vm s) = mid g s.
Proof. intros Hs. destruct (Hvm s Hs) as (R1 & R2 & R3 & R4). unfold mid. fold vm. rewrite R4. lia. Qed.
Lemma mid_range s : vm s <> 0 -> m < mid g s <= m + m.
Proof. intros Hs. destruct (Hvm s Hs) as (R1 & R2 & R3 & R4). unfold mid. fold vm m. lia. Qed.
Lemma mid_inj s t : vm s <> 0 -> vm t <> 0 -> mid g s = mid g t -> s = t \/ s = vm t.
Proof.
  intros Hs Ht. destruct (Hvm s Hs) as (R1 & R2 & R3 & R4). destruct (Hvm t Ht) as (Q1 & Q2 & Q3 & Q4). unfold mid. fold vm m. intros H.
  assert (s = t \/ s = vm t \/ vm s = t \/ vm s = vm t) as [?|[?|[E1|E1]]] by lia; [by left|by right| |].
  - right. by rewrite <- E1, R4.
  - left. by rewrite <- R4, E1, Q4.
Qed.
Lemma P0_in x : vm x <> 0 -> forall p, P0 p -> x ∈ p -> p = [x; mid g x; vm x] \/ p = [vm x; mid g x; x].
Proof.
  intros Hx p [(s & Hs & ->)|(y & Hy & -> & Hv & Hm)] Hin.
  - destruct (Hvm x Hx) as (R1 & _). pose proof (mid_range s Hs). destruct (Hvm s Hs) as (Q1 & Q2 & Q3 & Q4).
    apply elem_of_cons in Hin as [->|Hin]; [by left|]. apply elem_of_cons in Hin as [->|Hin]; [lia|]. apply elem_of_list_singleton in Hin as ->.
    right. by rewrite Q4, (mid_vm s Hs).
  - apply elem_of_list_singleton in Hin as ->. done.
Qed.
Lemma P0_conf ch : conf P0 (F ch 0).
Proof.
  constructor.
  - intros p [(s & Hs & ->)|(x & Hx & -> & H)]; [|right; by exists x]. left. exists (vm s). destruct (Hvm s Hs) as (R1 & R2 & R3 & R4). cbn.
    split; [lia|]. by rewrite R4, (mid_vm s Hs).
  - intros p [(s & Hs & ->)|(x & Hx & -> & H)]; [|apply NoDup_singleton]. destruct (Hvm s Hs) as (R1 & R2 & R3 & R4). pose proof (mid_range s Hs).
    constructor; [|constructor; [|apply NoDup_singleton]].
    + rewrite elem_of_cons, elem_of_list_singleton. lia.
    + rewrite elem_of_list_singleton. lia.
  - intros [(s & Hs & H)|(x & Hx & H & _)]; done.
  - intros x. split.
    + intros Hx. destruct (decide (vm x = 0)) as [E1|E1]; [|exists [x; mid g x; vm x]; split; [left; by exists x|left]].
      destruct (decide (Exists (fun s => vm s <> 0 /\ x = mid g s) (seq 1 m))) as [(s & _ & Hs & ->)%Exists_exists|Hno].
      * exists [s; mid g s; vm s]. split; [left; by exists s|]. right. left.
      * exists [x]. split; [|left]. right. exists x. split_and!; [lia|lia|done|done|]. intros s Hs ->. apply Hno, Exists_exists. exists s. split; [|done].
        apply elem_of_seq. destruct (Hvm s Hs). lia.
    + intros (p & [(s & Hs & ->)|(y & Hy & -> & H)] & Hin); [|by apply elem_of_list_singleton in Hin as ->].
      destruct (Hvm s Hs) as (R1 & R2 & R3 & R4). pose proof (mid_range s Hs).
      apply elem_of_cons in Hin as [->|Hin]; [lia|]. apply elem_of_cons in Hin as [->|Hin]; [lia|]. apply elem_of_list_singleton in Hin as ->. lia.
  - intros p q x Hp Hq Hxp Hxq. destruct (decide (vm x = 0)) as [E1|E1].
    + destruct Hp as [(s & Hs & ->)|(y & Hy & -> & Hv & Hm)].
      * destruct (Hvm s Hs) as (R1 & R2 & R3 & R4).
        assert (x = mid g s) as ->. { apply elem_of_cons in Hxp as [->|Hin]; [done|]. apply elem_of_cons in Hin as [->|Hin]; [done|]. apply elem_of_list_singleton in Hin as ->. lia. }
        destruct Hq as [(t & Ht & ->)|(y & Hy & -> & Hv & Hm)].
        -- destruct (Hvm t Ht) as (Q1 & Q2 & Q3 & Q4). assert (mid g s = mid g t) as Em.
           { pose proof (mid_range s Hs). apply elem_of_cons in Hxq as [E2|Hin]; [lia|]. apply elem_of_cons in Hin as [->|Hin]; [done|]. apply elem_of_list_singleton in Hin. lia. }
           destruct (mid_inj s t Hs Ht Em) as [->| ->]; [by left|]. right. cbn. by rewrite Q4, (mid_vm t Ht).
        -- apply elem_of_list_singleton in Hxq as <-. by destruct (Hm s Hs).
      * apply elem_of_list_singleton in Hxp as ->. destruct Hq as [(t & Ht & ->)|(z & Hz & -> & _)]; [|left; by apply elem_of_list_singleton in Hxq as ->].
        exfalso. destruct (Hvm t Ht) as (Q1 & Q2 & Q3 & Q4). apply elem_of_cons in Hxq as [E2|Hin]; [congruence|]. apply elem_of_cons in Hin as [E2|Hin]; [by apply (Hm t Ht)|].
        apply elem_of_list_singleton in Hin as ->. lia.
    + destruct (P0_in x E1 p Hp Hxp) as [->| ->], (P0_in x E1 q Hq Hxq) as [->| ->]; cbn; tauto.
  - intros x y. split.
    + intros [(a & e & Ha & _)|(s & Hs & [[-> ->]|[-> ->]])]; [lia| |].
      * exists [s; mid g s; vm s]. split; [left; by exists s|]. by exists [], [vm s].
      * destruct (Hvm s Hs) as (R1 & R2 & R3 & R4). exists [vm s; mid g s; s]. split; [left; exists (vm s); split; [lia|by rewrite R4, (mid_vm s Hs)]|]. by exists [vm s], [].
    + intros (p & [(s & Hs & ->)|(z & Hz & -> & _)] & Hn); [|by apply next_one in Hn].
      destruct (Hvm s Hs) as (R1 & R2 & R3 & R4). right.
      apply next_cons in Hn as [[-> [l' E1]]|Hn]; [injection E1 as <- _; exists s; tauto|].
      apply next_cons in Hn as [[-> [l' E1]]|Hn]; [|by apply next_one in Hn]. injection E1 as <- _. exists (vm s). split; [fold vm; lia|]. right. split; [|done]. symmetry. by apply mid_vm.
  - done.
  - done.
Qed.
Lemma pm_init_at x : pm_init g !! x = if decide (vm x = 0) then None else Some (vm x).
Proof.
  unfold pm_init. assert (forall l mt, foldl (fun m v => let w := virtualMate g v in if 1 <=? w then <[v:=w]> m else m) mt l !! x =
    if decide (x ∈ l /\ vm x <> 0) then Some (vm x) else (mt : gmap nat nat) !! x) as H.
  { induction l as [|v l IH]; intros mt; cbn [foldl].
    - destruct (decide _) as [[H _]|]; [by apply elem_of_nil in H|done].
    - rewrite IH. fold (vm v). cbn zeta. destruct (decide (x ∈ l /\ vm x <> 0)) as [[H1 H2]|Hno].
      + rewrite decide_True; [done|]. split; [by right|done].
      + destruct (decide (x ∈ v :: l /\ vm x <> 0)) as [[H1 H2]|Hno'].
        * apply elem_of_cons in H1 as [->|H1]; [|by destruct Hno]. destruct (Nat.leb_spec 1 (vm v)); [|lia]. by rewrite lookup_insert.
        * destruct (Nat.leb_spec 1 (vm v)); [|done]. rewrite lookup_insert_ne; [done|]. intros ->. apply Hno'. split; [left|lia]. }
  rewrite H. destruct (decide (vm x = 0)) as [E1|E1].
  - rewrite decide_False; [done|]. by intros [_ ?].
  - rewrite decide_True; [done|]. split; [|done]. apply elem_of_seq. fold m. destruct (Hvm x E1). lia.
Qed.
Lemma PInv_root ch : 0 < n -> PInv ch 0 (pm_init g) P0.
Proof.
  intros Hn. assert (V0 0 = 1) as EV. { destruct (lookup_lt_is_Some_2 es 0 Hn) as [e He]. rewrite (V0_at m es 0 e He). by apply (front_first m es HN 0). }
  constructor.
  - apply P0_conf.
  - intros x Hx. rewrite pm_init_at. destruct (decide (vm x = 0)) as [E1|E1].
    + right. exists x. split_and!; [lia|lia|done|done|]. intros s Hs ->. pose proof (mid_range s Hs). lia.
    + destruct (Hvm x E1) as (R1 & R2 & R3 & R4). cbn. rewrite decide_False by done. exists [mid g x]. left. exists (vm x). split; [lia|]. by rewrite R4, (mid_vm x E1).
  - intros x Hx. rewrite pm_init_at. destruct (decide (vm x = 0)) as [|E1]; [done|]. destruct (Hvm x E1). lia.
  - intros x l a Hx. lia.
Qed.

(** ** lists *)
Lemma int_shape (a b x : nat) q : x ∈ q -> exists l1 c d l2, a :: q ++ [b] = l1 ++ c :: x :: d :: l2.
Proof.
  intros (q1 & q2 & ->)%elem_of_list_split. destruct (snoc_inv (a :: q1)) as [|(l1 & c & E1)]; [done|].
  destruct (q2 ++ [b]) as [|d l2] eqn:E2; [by destruct q2|]. exists l1, c, d, l2. rewrite <- app_assoc. cbn [app]. rewrite E2, app_comm_cons, E1, <- app_assoc. done.
Qed.
Lemma end_shape' (q : list nat) x : q <> [] -> exists r, q ++ [x] = hd x q :: r ++ [x].
Proof. destruct q as [|a q]; [done|]. intros _. by exists q. Qed.

(** ** one decision *)
Section decide.
Context (ch : nat -> bool) (i : nat) (mt : gmap nat nat) (P : list nat -> Prop) (HI : PInv ch i mt P) (e : edge_info) (He : es !! i = Some e).
Notation v1 := (e_v1 e).
Notation v2 := (e_v2 e).
Notation w1 := (default v1 (mt !! v1)).
Notation w2 := (default v2 (mt !! v2)).

Lemma path_at x : V0 i <= x <= m -> default x (mt !! x) <> 0 -> exists l, P (l ++ [x]) /\ default x (mt !! x) = hd x l /\ (mt !! x = None -> l = []) /\ (l = [] -> mt !! x = None).
Proof.
  intros Hx Hw. pose proof (pi_at _ _ _ _ HI x Hx) as Ht. destruct (mt !! x) as [z|] eqn:Ez; cbn [default id] in *.
  - unfold tells in Ht. rewrite decide_False in Ht by done. destruct Ht as [l Hl]. by exists (z :: l).
  - by exists [].
Qed.
Lemma not_both l k : P (l ++ [v1]) -> P (k ++ [v2]) -> hd v1 l <> v2 -> forall x, x ∈ l ++ [v1] -> x ∉ k ++ [v2].
Proof.
  intros H1 H2 Hw x Hx Hx'. destruct (edge_ends _ _ He) as (R1 & R2 & R3 & R4). destruct (c_uniq _ _ _ _ (pi_conf _ _ _ _ HI) _ _ x H1 H2 Hx Hx') as [E1|E1].
  - apply app_inj_tail in E1 as [_ E1]. lia.
  - destruct l as [|a l]; [destruct k as [|b k]; [injection E1 as E1; lia|injection E1 as _ E1; by destruct k]|].
    change ((a :: l) ++ [v1]) with (a :: l ++ [v1]) in E1. rewrite rev_ends, app_comm_cons in E1. apply app_inj_tail in E1 as [_ E1]. by apply Hw.
Qed.

(** *** joining two paths *)
Definition mt_take : gmap nat nat := <[w2 := w1]> (<[w1 := w2]> (<[v1 := 0]> (<[v2 := 0]> mt))).
Section take.
Context (l k : list nat) (H1 : P (l ++ [v1])) (H2 : P (k ++ [v2])) (Hw1 : w1 = hd v1 l) (Hw2 : w2 = hd v2 k) (Hz1 : w1 <> 0) (Hz2 : w2 <> 0) (Hd : w1 <> v2).
Notation J := (J v1 v2 l k).
Notation P' := (Pj P v1 v2 l k).
Lemma tk_disj : forall x, x ∈ l ++ [v1] -> x ∉ k ++ [v2].
Proof. apply not_both; [done|done|]. by rewrite <- Hw1. Qed.
Lemma tk_conf0 : conf P' (Rj (F ch i) v1 v2).
Proof. apply (join_conf _ _ _ _ (pi_conf _ _ _ _ HI)); [done|done|apply tk_disj|by right|by right|done]. Qed.
Lemma tk_conf : ch i = true -> conf P' (F ch (S i)).
Proof.
  intros Hc. eapply conf_ext; [|apply tk_conf0]. intros x y. rewrite (F_S ch i e x y He). unfold Rj, joins. split.
  - intros [H|H]; [by left|]. right. split; [done|]. destruct H as [[-> ->]|[-> ->]]; tauto.
  - intros [H|[_ H]]; [by left|]. right. destruct H as [[<- <-]|[<- <-]]; tauto.
Qed.
Lemma w1_in : w1 ∈ l ++ [v1].
Proof. rewrite Hw1. destruct l; cbn; [left|left]. Qed.
Lemma w2_in : w2 ∈ k ++ [v2].
Proof. rewrite Hw2. destruct k; cbn; [left|left]. Qed.
Lemma tk_in x : x ∈ J <-> x ∈ l ++ [v1] \/ x ∈ k ++ [v2].
Proof. apply J_in. Qed.
Lemma tk_ne x y : x ∈ l ++ [v1] -> y ∈ k ++ [v2] -> x <> y.
Proof. intros Hx Hy ->. by apply (tk_disj y Hx). Qed.
Lemma v_in (r : list nat) x : x ∈ r ++ [x].
Proof. apply elem_of_app. right. left. Qed.
Lemma tk_get x : mt_take !! x = if decide (x = w2) then Some w1 else if decide (x = w1) then Some w2 else
  if decide (x = v1 \/ x = v2) then Some 0 else mt !! x.
Proof.
  unfold mt_take. destruct (decide (x = w2)) as [->|N2]; [by rewrite lookup_insert|]. rewrite lookup_insert_ne by done.
  destruct (decide (x = w1)) as [->|N1]; [by rewrite lookup_insert|]. rewrite lookup_insert_ne by done.
  destruct (decide (x = v1 \/ x = v2)) as [Hv|Hv].
  - destruct (decide (x = v1)) as [->|Nv]; [by rewrite lookup_insert|]. rewrite lookup_insert_ne by done. destruct Hv as [?| ->]; [done|]. by rewrite lookup_insert.
  - rewrite !lookup_insert_ne; [done|intros <-; tauto|intros <-; tauto].
Qed.
Lemma tk_J : exists q, J = w1 :: q ++ [w2].
Proof.
  destruct (join_end2 nocol P v1 v2 l k H1 H2 tk_disj (or_intror eq_refl) (or_intror eq_refl) (fun _ _ => eq_refl)) as (_ & q & E1 & Hq & Hh). rewrite Hw1, Hw2, E1. destruct q as [|a q]; [done|]. cbn in Hh. subst a. by exists q.
Qed.
Lemma old_int x r (y : nat) : P (r ++ [y]) -> x ∈ r ++ [y] -> x <> y -> x <> hd y r -> V0 i <= x <= m -> mt !! x = Some 0.
Proof.
  intros Hp Hx N1 N2 Hr. apply (tells_fun ch i P (pi_conf _ _ _ _ HI) x); [by apply (pi_at _ _ _ _ HI)|]. cbn. destruct r as [|a r]; [by apply elem_of_list_singleton in Hx|].
  cbn in N2, Hx. apply elem_of_cons in Hx as [?|Hx]; [done|]. apply elem_of_app in Hx as [Hx|Hx%elem_of_list_singleton]; [|done].
  destruct (int_shape a y x r Hx) as (l1 & c & d & l2 & E1). exists l1, c, d, l2. rewrite <- E1. exact Hp.
Qed.
Lemma tk_at x : V0 i <= x <= m -> tells P' x (mt_take !! x).
Proof.
  intros Hx. pose proof (pi_at _ _ _ _ HI x Hx) as Ht. pose proof w1_in as Iw1. pose proof w2_in as Iw2. pose proof (v_in l v1) as Iv1. pose proof (v_in k v2) as Iv2.
  rewrite tk_get. destruct (decide (x ∈ J)) as [Hj|Hj].
  - destruct tk_J as [q EJ]. assert (HP : P' (w1 :: q ++ [w2])) by (rewrite <- EJ; right; by left).
    destruct (decide (x = w2)) as [->|N2]; [cbn; rewrite decide_False by done; by exists q|].
    destruct (decide (x = w1)) as [->|N1].
    { cbn. rewrite decide_False by done. exists (rev q). rewrite <- rev_ends, <- EJ. right; by right. }
    assert (tells P' x (Some 0)) as Hint.
    { cbn. rewrite EJ in Hj. apply elem_of_cons in Hj as [?|Hj]; [done|]. apply elem_of_app in Hj as [Hj|Hj%elem_of_list_singleton]; [|done].
      destruct (int_shape w1 w2 x q Hj) as (l1 & c & d & l2 & E1). exists l1, c, d, l2. by rewrite <- E1. }
    destruct (decide (x = v1 \/ x = v2)) as [|Nv]; [done|].
    assert (mt !! x = Some 0) as ->; [|done]. apply tk_in in Hj as [Hj|Hj].
    + apply (old_int x l v1); [done|done|tauto|by rewrite <- Hw1|done].
    + apply (old_int x k v2); [done|done|tauto|by rewrite <- Hw2|done].
  - assert (HJ : forall r, x ∈ r -> P r -> P' r). { intros r Hr Hp. by eapply (old_Pj _ _ _ _ (pi_conf _ _ _ _ HI) v1 v2 l k H1 H2 tk_disj). }
    rewrite !decide_False.
    + destruct (mt !! x) as [z|]; cbn in *; [|apply HJ; [left|done]]. destruct (decide (z = 0)) as [->|].
      * destruct Ht as (l1 & a & b & l2 & Hp). exists l1, a, b, l2. apply HJ; [|done]. set_solver.
      * destruct Ht as (r & Hp). exists r. apply HJ; [set_solver|done].
    + intros [->| ->]; apply Hj, tk_in; tauto.
    + intros ->. apply Hj, tk_in. by left.
    + intros ->. apply Hj, tk_in. by right.
Qed.
Lemma w_range (r : list nat) y : V0 i <= y <= m -> P (r ++ [y]) -> V0 i <= hd y r <= m.
Proof.
  intros Hy Hp. destruct r as [|a r]; [done|]. cbn [hd app] in *.
  destruct (r ++ [y]) as [|c r'] eqn:E1; [by destruct r|].
  pose proof (hd_real ch i P (pi_conf _ _ _ _ HI) r' c a Hp) as Hr. split; [|lia].
  destruct (decide (V0 i <= a)) as [|Hlt]; [done|]. exfalso. apply (c_rev _ _ _ _ (pi_conf _ _ _ _ HI)) in Hp. cbn in Hp. rewrite <- app_assoc in Hp.
  apply (pi_left _ _ _ _ HI a _ _ ltac:(lia) Hp).
Qed.
Lemma tk_out x : ~ (V0 i <= x <= m) -> mt_take !! x = None.
Proof.
  intros Hx. destruct (edge_ends _ _ He) as (R1 & R2 & R3 & R4). pose proof (w_range l v1 ltac:(lia) H1) as W1. pose proof (w_range k v2 ltac:(lia) H2) as W2.
  rewrite <- Hw1 in W1. rewrite <- Hw2 in W2. rewrite tk_get, !decide_False; [by apply (pi_out _ _ _ _ HI)|lia|lia|lia].
Qed.
Lemma tk_left x r a : 1 <= x < V0 i -> ~ P' (r ++ [a; x]).
Proof.
  intros Hx Hp. destruct (edge_ends _ _ He) as (R1 & R2 & R3 & R4).
  assert (HP : P' ((r ++ [a]) ++ [x])) by (by rewrite <- app_assoc).
  pose proof (w_range l v1 ltac:(lia) H1) as W1. pose proof (w_range k v2 ltac:(lia) H2) as W2. rewrite <- Hw1 in W1. rewrite <- Hw2 in W2.
  destruct Hp as [(Hp & _)|Hp]; [by apply (pi_left _ _ _ _ HI x r a Hx)|]. destruct tk_J as [q EJ].
  assert (x = w1 \/ x = w2); [|lia]. destruct Hp as [E1|E1].
  - right. rewrite EJ in E1. replace (r ++ [a; x]) with ((r ++ [a]) ++ [x]) in E1 by (by rewrite <- app_assoc). rewrite app_comm_cons in E1. by apply app_inj_tail in E1 as [_ ?].
  - left. rewrite EJ, rev_ends in E1. replace (r ++ [a; x]) with ((r ++ [a]) ++ [x]) in E1 by (by rewrite <- app_assoc). rewrite app_comm_cons in E1. by apply app_inj_tail in E1 as [_ ?].
Qed.
End take.
End decide.

(** *** the vertices that leave *)
Section leave.
Context (ch : nat -> bool) (i : nat) (e : edge_info) (He : es !! i = Some e) (mt : gmap nat nat) (P : list nat -> Prop) (u1 u2 : bool).
Notation v1 := (e_v1 e).
Notation v2 := (e_v2 e).
Context (HC : conf P (F ch (S i))) (Hat : forall x, V0 i <= x <= m -> tells P x (mt !! x)) (Hout : forall x, ~ (V0 i <= x <= m) -> mt !! x = None)
  (Hleft : forall x l a, 1 <= x < V0 i -> ~ P (l ++ [a; x])).
Context (Hu1 : e_v1final e = true -> u1 = true <-> mt !! v1 = None) (Hu2 : e_v2final e = true -> u2 = true <-> mt !! v2 = None).
Lemma last_edge x : (x = v1 /\ e_v1final e = true) \/ (x = v2 /\ e_v2final e = true) -> forall b, ~ later es i x b.
Proof. intros [[-> H]|[-> H]]; [by apply (no_final1 _ _ HN _ _ He)|by apply (no_final2 _ _ HN _ _ He)]. Qed.
(** an end that gets no more edges cannot be on a cycle *)
Lemma stuck x r a : P (r ++ [a; x]) -> (forall b, ~ later es i x b) -> ~ cyclegood (m + m) nocol (F ch n).
Proof.
  intros Hp Hl HG. assert (HP : P ((r ++ [a]) ++ [x])) by (by rewrite <- app_assoc).
  assert (F ch (S i) x a) as Ha by (apply (conf_next_end _ _ _ _ HC _ _ _ HP); by exists r).
  pose proof (lookup_lt_Some _ _ _ He) as Hi. fold n in Hi.
  destruct (dg_unc _ _ _ (cg_degs _ _ _ HG) x a eq_refl (F_mono ch (S i) n x a ltac:(lia) Ha)) as (b & c & Hbc & Hz).
  assert (Hone : forall y, F ch n x y -> y = a).
  { intros y Hy. apply (F_later ch i x y Hl) in Hy. apply (conf_next_end _ _ _ _ HC _ _ _ HP) in Hy as [r' E1]. by apply app_inj_tail in E1 as [_ ->]. }
  apply Hbc. rewrite (Hone b), (Hone c); [done|apply Hz; by right|apply Hz; by left].
Qed.
Lemma leave_none f u v (mt' : gmap nat nat) : V0 i <= v <= m -> mt' !! v = mt !! v -> (f = true -> forall b, ~ later es i v b) ->
  pm_leave f u v mt' = None -> ~ cyclegood (m + m) nocol (F ch n).
Proof.
  intros Hv Em Hf. unfold pm_leave. destruct (f && negb u) eqn:E1; [|done]. apply andb_true_iff in E1 as [E1 _].
  destruct (Nat.eqb_spec (default 0 (mt' !! v)) 0) as [|N0]; [done|]. intros _. rewrite Em in N0. pose proof (Hat v Hv) as Ht.
  destruct (mt !! v) as [z|]; cbn in N0, Ht; [|done]. rewrite decide_False in Ht by done. destruct Ht as [r Hp]. destruct (end_shape z v r) as (l' & c & E2). rewrite E2 in Hp.
  eapply stuck; [exact Hp|by apply Hf].
Qed.
Lemma leave_get f u v (mt' mt1 : gmap nat nat) : pm_leave f u v mt' = Some mt1 -> forall x, mt1 !! x = if decide (x = v /\ f = true /\ u = false) then None else mt' !! x.
Proof.
  unfold pm_leave. destruct (f && negb u) eqn:E1.
  - apply andb_true_iff in E1 as [-> E1%negb_true_iff]. destruct (default 0 (mt' !! v) =? 0); [|done]. intros [= <-] x. destruct (decide _) as [(-> & _)|Hn].
    + apply lookup_delete.
    + apply lookup_delete_ne. intros ->. by apply Hn.
  - intros [= <-] x. rewrite decide_False; [done|]. intros (_ & -> & ->). done.
Qed.
Lemma leave_zero f u v (mt' mt1 : gmap nat nat) : pm_leave f u v mt' = Some mt1 -> f = true -> u = false -> default 0 (mt' !! v) = 0.
Proof. unfold pm_leave. intros H -> ->. cbn in H. by destruct (Nat.eqb_spec (default 0 (mt' !! v)) 0). Qed.
Lemma leave_ok mt1 mt2 : pm_leave (e_v1final e) u1 v1 mt = Some mt1 -> pm_leave (e_v2final e) u2 v2 mt1 = Some mt2 -> PInv ch (S i) mt2 P.
Proof.
  intros L1 L2. destruct (edge_ends _ _ He) as (R1 & R2 & R3 & R4). pose proof (leave_get _ _ _ _ _ L1) as G1. pose proof (leave_get _ _ _ _ _ L2) as G2.
  pose proof (lookup_lt_Some _ _ _ He) as Hi. pose proof (V0_mono m es HN i Hi) as Hmono.
  assert (Hgone : forall x, V0 i <= x <= m -> x < V0 (S i) -> mt !! x = None \/ mt !! x = Some 0).
  { intros x Hx Hlt. apply (front_fin m es HN i e x He Hx) in Hlt as [[-> Hf]|[-> Hf]].
    - destruct u1 eqn:Eu; [left; by apply Hu1|]. pose proof (leave_zero _ _ _ _ _ L1 Hf eq_refl) as Z1. destruct (mt !! v1) as [z|]; [right; cbn in Z1; by subst|by left].
    - destruct u2 eqn:Eu; [left; by apply Hu2|]. pose proof (leave_zero _ _ _ _ _ L2 Hf eq_refl) as Z1. rewrite G1 in Z1. rewrite decide_False in Z1 by lia.
      destruct (mt !! v2) as [z|]; [right; cbn in Z1; by subst|by left]. }
  constructor.
  - done.
  - intros x Hx. assert (Hs : ~ (x < V0 (S i))) by lia. rewrite (front_fin m es HN i e x He ltac:(lia)) in Hs. rewrite G2, decide_False by tauto. rewrite G1, decide_False by tauto. apply Hat. lia.
  - intros x Hx. rewrite G2. destruct (decide _) as [|N2]; [done|]. rewrite G1. destruct (decide _) as [|N1]; [done|].
    destruct (decide (V0 i <= x <= m)) as [Hin|Hin]; [|by apply Hout]. assert (Hs : x < V0 (S i)) by lia.
    apply (front_fin m es HN i e x He Hin) in Hs as [[-> Hf]|[-> Hf]].
    + apply Hu1; [done|]. destruct u1; [done|]. by destruct N1.
    + apply Hu2; [done|]. destruct u2; [done|]. by destruct N2.
  - intros x r a Hx Hp. destruct (decide (x < V0 i)) as [Hlt|Hge]; [apply (Hleft x r a); [lia|done]|].
    pose proof (end_real ch (S i) P HC _ _ _ Hp). pose proof (Hat x ltac:(lia)) as Ht. destruct (Hgone x ltac:(lia) ltac:(lia)) as [E1|E1]; rewrite E1 in Ht; cbn in Ht.
    + by destruct (one_not_end ch (S i) P HC _ _ _ Ht Hp).
    + destruct Ht as (l1 & b & c & l2 & Ht). by destruct (int_not_end ch (S i) P HC _ _ _ _ _ _ _ Ht Hp).
Qed.
End leave.

(** ** what rules out a cycle, and what makes one *)
Definition good (ch : nat -> bool) : Prop := exists c, cyc_rel (F ch n) c.
Lemma good_cg ch : good ch -> cyclegood (m + m) nocol (F ch n).
Proof. intros [c Hc]. by apply (cycle_good _ _ _ c). Qed.

Section take_edge.
Context (ch : nat -> bool) (i : nat) (mt : gmap nat nat) (P : list nat -> Prop) (HI : PInv ch i mt P) (e : edge_info) (He : es !! i = Some e) (Hch : ch i = true).
Notation v1 := (e_v1 e).
Notation v2 := (e_v2 e).
Let HC := pi_conf _ _ _ _ HI.
Lemma le_in : i < n.
Proof. exact (lookup_lt_Some _ _ _ He). Qed.
Lemma F_in x y : F ch i x y -> F ch n x y.
Proof. apply F_mono. pose proof le_in. lia. Qed.
Lemma full_stuck x y : joins e x y -> V0 i <= x <= m -> default x (mt !! x) = 0 -> ~ cyclegood (m + m) nocol (F ch n).
Proof.
  intros Hj Hx Hz HG. pose proof (pi_at _ _ _ _ HI x Hx) as Ht. destruct (edge_ends _ _ He) as (R1 & R2 & R3 & R4). destruct (mt !! x) as [z|]; cbn in Hz; [subst z|lia]. cbn in Ht.
  destruct Ht as (l1 & a & b & l2 & Hp). apply (F_new ch i e x y He Hj).
  apply (full_vertex _ _ P (F ch i) (F ch n) HC F_in (cg_degs _ _ _ HG)); [lia| |by apply (F_at ch i e)]. intros [w Hw]. by apply (live_int _ _ _ _ HC _ _ _ _ _ _ Hp) in Hw.
Qed.
Lemma first_stuck x y : joins e x y -> V0 i <= x <= m -> mt !! x = None -> (forall b, ~ later es i x b) -> ~ cyclegood (m + m) nocol (F ch n).
Proof.
  intros Hj Hx Hz Hl HG. pose proof (pi_at _ _ _ _ HI x Hx) as Ht. rewrite Hz in Ht. cbn in Ht.
  assert (Hone : forall y', F ch n x y' -> y' = y).
  { intros y' Hy. apply (F_later ch i x y' Hl) in Hy. apply (F_S ch i e x y' He) in Hy as [Hy|[_ Hy]]; [by apply (conf_next_one _ _ _ _ HC x y' Ht) in Hy|].
    destruct (joins_range _ _ _ _ He Hj) as (_ & _ & ?). unfold joins in *. lia. }
  destruct (dg_unc _ _ _ (cg_degs _ _ _ HG) x y eq_refl (F_at ch i e x y He Hch Hj)) as (b & c & Hbc & Hd). apply Hbc. rewrite (Hone b), (Hone c); [done|apply Hd; by right|apply Hd; by left].
Qed.

(** closing a path *)
Section close.
Context (q : list nat) (Hp : P (v2 :: q ++ [v1])).
Lemma cl_ne : q <> [].
Proof. intros ->. apply (F_new ch i e v1 v2 He (edge_joins e)). apply (conf_next_end _ _ _ _ HC [v2]); [exact Hp|by exists []]. Qed.
Lemma cl_closed : cyclegood (m + m) nocol (F ch n) -> closed (F ch n) (fun y => y ∈ v2 :: q ++ [v1]).
Proof.
  intros HG. apply (closed_cycle _ _ P (F ch i) (F ch n) HC F_in (cg_degs _ _ _ HG) v2 q v1 Hp eq_refl eq_refl (F_at ch i e _ _ He Hch (edge_joins e)) (F_new ch i e _ _ He (edge_joins e))).
Qed.
Lemma cl_v1 : v1 ∈ v2 :: q ++ [v1].
Proof. right. apply elem_of_app. right. left. Qed.
Lemma cl_full a b : cyclegood (m + m) nocol (F ch n) -> F ch n a b -> a ∈ v2 :: q ++ [v1] /\ F ch (S i) a b.
Proof.
  intros HG Hab. pose proof (cg_conn _ _ _ HG _ _ _ _ _ (cl_closed HG) (F_at ch i e _ _ He Hch (edge_joins e)) cl_v1 Hab) as Ha. cbv beta in Ha. split; [done|]. apply (F_S ch i e a b He).
  destruct (cycle_full _ _ P (F ch i) (F ch n) HC F_in (cg_degs _ _ _ HG) v2 q v1 Hp eq_refl eq_refl (F_at ch i e _ _ He Hch (edge_joins e)) (F_new ch i e _ _ He (edge_joins e)) a b Ha Hab) as [H|[[-> ->]|[-> ->]]].
  - by left.
  - right. split; [done|apply edge_joins].
  - right. split; [done|apply joins_sym, edge_joins].
Qed.
Lemma cl_rest : cyclegood (m + m) nocol (F ch n) -> forall a, i < a < n -> ch a = false.
Proof.
  intros HG a Ha. destruct (ch a) eqn:Hca; [|done]. exfalso. destruct (lookup_lt_is_Some_2 es a) as [f Hf]; [exact (proj2 Ha)|].
  destruct (cl_full _ _ HG (F_at ch a f _ _ Hf Hca (edge_joins f))) as [_ Hx].
  apply (F_new ch a f _ _ Hf (edge_joins f)). eapply F_mono; [|exact Hx]. lia.
Qed.
Lemma cl_open x z : mt !! x = Some z -> 0 < z -> x <> v1 -> x <> v2 -> ~ cyclegood (m + m) nocol (F ch n).
Proof.
  intros Hz Hpos N1 N2 HG. assert (Hx : V0 i <= x <= m). { destruct (decide (V0 i <= x <= m)) as [|Hn]; [done|]. by rewrite (pi_out _ _ _ _ HI x Hn) in Hz. }
  pose proof (pi_at _ _ _ _ HI x Hx) as Ht. rewrite Hz in Ht. cbn in Ht. rewrite decide_False in Ht by lia. destruct Ht as [r Hr].
  destruct (end_shape z x r) as (l' & c & E1). rewrite E1 in Hr. assert (Hr' : P ((l' ++ [c]) ++ [x])) by (by rewrite <- app_assoc).
  assert (F ch n x c) as Hxc. { apply F_in. apply (conf_next_end _ _ _ _ HC _ _ _ Hr'). by exists l'. }
  destruct (cl_full _ _ HG Hxc) as [Hin _]. apply elem_of_cons in Hin as [?|Hin]; [done|]. apply elem_of_app in Hin as [Hin|Hin%elem_of_list_singleton]; [|done].
  destruct (int_shape v2 v1 x q Hin) as (l1 & a & b & l2 & E2). pose proof Hp as Hp'. rewrite E2 in Hp'. exact (int_not_end ch i P HC _ _ _ _ _ _ _ Hp' Hr).
Qed.
Lemma cl_done : (forall x z, mt !! x = Some z -> x <> v1 -> x <> v2 -> z = 0) -> (forall a, i < a < n -> ch a = false) -> good ch.
Proof.
  intros Hcl Hz. exists (v2 :: q ++ [v1]). apply (close_cycle (m + m) nocol P (F ch i) (F ch n) v2 q v1 HC Hp cl_ne).
  - assert (Hend : forall r c x, P (r ++ [c; x]) -> x = v1 \/ x = v2).
    { intros r c x Hr. destruct (decide (x = v1)) as [|N1]; [by left|]. destruct (decide (x = v2)) as [|N2]; [by right|]. exfalso.
      pose proof (end_real ch i P HC _ _ _ Hr) as Rx. assert (V0 i <= x) as Hx. { destruct (decide (V0 i <= x)) as [|Hn]; [done|]. destruct (pi_left _ _ _ _ HI x r c); [lia|done]. }
      pose proof (pi_at _ _ _ _ HI x ltac:(lia)) as Ht. destruct (mt !! x) as [z|] eqn:Ez.
      - pose proof (Hcl x z Ez N1 N2) as ->. cbn in Ht. destruct Ht as (l1 & a & b & l2 & Ht). by apply (int_not_end ch i P HC _ _ _ _ _ _ _ Ht Hr).
      - cbn in Ht. by apply (one_not_end ch i P HC _ _ _ Ht Hr). }
    intros p Hpp Hlen. destruct (len2 p Hlen) as (x & r & y & ->). destruct (end_shape x y r) as (l' & c & E1). pose proof Hpp as Hy. rewrite E1 in Hy. apply Hend in Hy.
    assert (Iy : y ∈ x :: r ++ [y]) by (right; apply elem_of_app; right; left). destruct Hy as [->| ->]; [done|].
    destruct (c_uniq _ _ _ _ HC _ _ v2 Hp Hpp) as [E2|E2]; [left|done|rewrite E2; apply cl_v1|]. rewrite E2. apply elem_of_rev. apply cl_v1.
  - intros a b. split.
    + intros [(c & f & Hc & Hf & Hcc & Hj)|Hh]; [|by left; right]. destruct (decide (c < i)) as [|Hge]; [left; left; exists c, f; done|].
      destruct (decide (c = i)) as [->|Nc]; [|rewrite Hz in Hcc by (fold n in Hc; lia); done]. rewrite He in Hf. injection Hf as <-.
      destruct Hj as [[<- <-]|[<- <-]]; [right; left; done|right; right; done].
    + intros [H|[[-> ->]|[-> ->]]]; [by apply F_in|by apply (F_at ch i e _ _ He Hch), edge_joins|by apply (F_at ch i e _ _ He Hch), joins_sym, edge_joins].
Qed.
End close.
End take_edge.

(** after the last edge *)
Lemma end_stuck ch mt P : PInv ch n mt P -> ~ cyclegood (m + m) nocol (F ch n).
Proof.
  intros HI HG. pose proof (pi_conf _ _ _ _ HI) as HC. destruct (cg_some _ _ _ HG) as (x & y & HE).
  apply (c_adj _ _ _ _ HC) in HE as (p & Hp & l1 & l2 & ->). destruct (snoc_inv (y :: l2)) as [|(q & z & E1)]; [done|].
  destruct (snoc_inv (l1 ++ x :: q)) as [Er|(r & a & Er)]; [by destruct l1|].
  assert (P (r ++ [a; z])) as Hz. { replace (r ++ [a; z]) with ((r ++ [a]) ++ [z]) by (by rewrite <- app_assoc). rewrite <- Er, <- app_assoc. cbn. rewrite <- E1. exact Hp. }
  pose proof (end_real ch n P HC _ _ _ Hz). apply (pi_left _ _ _ _ HI z r a); [|done]. unfold n. rewrite V0_end. lia.
Qed.

(** ** getChild *)
Lemma pm_open_iff v1 v2 (mt : gmap nat nat) : pm_open v1 v2 mt = true <-> exists x z, mt !! x = Some z /\ x <> v1 /\ x <> v2 /\ 0 < z.
Proof.
  unfold pm_open. rewrite existsb_exists. split.
  - intros ([x z] & Hin & H). apply elem_of_list_In, elem_of_map_to_list in Hin. apply andb_true_iff in H as [H H3%Nat.ltb_lt]. apply andb_true_iff in H as [H1%negb_true_iff%Nat.eqb_neq H2%negb_true_iff%Nat.eqb_neq]. by exists x, z.
  - intros (x & z & Hin & H1 & H2 & H3). exists (x, z). split; [by apply elem_of_list_In, elem_of_map_to_list|]. rewrite (proj2 (Nat.eqb_neq _ _) H1), (proj2 (Nat.eqb_neq _ _) H2), (proj2 (Nat.ltb_lt _ _) H3). done.
Qed.
Definition stepres (ch : nat -> bool) (i : nat) (res : Z * gmap nat nat) : Prop :=
  (fst res = 0%Z /\ ~ good ch) \/
  (fst res = (-1)%Z /\ (good ch <-> forall a, i < a < n -> ch a = false)) \/
  (fst res = Z.of_nat (n - S i) /\ exists P, PInv ch (S i) (snd res) P).
Lemma finish_ok ch i e (mt : gmap nat nat) P u1 u2 : es !! i = Some e -> i < n ->
  conf P (F ch (S i)) -> (forall x, V0 i <= x <= m -> tells P x (mt !! x)) -> (forall x, ~ (V0 i <= x <= m) -> mt !! x = None) ->
  (forall x l a, 1 <= x < V0 i -> ~ P (l ++ [a; x])) ->
  (e_v1final e = true -> u1 = true <-> mt !! e_v1 e = None) -> (e_v2final e = true -> u2 = true <-> mt !! e_v2 e = None) ->
  exists res, match pm_leave (e_v1final e) u1 (e_v1 e) mt with
    | None => Some (0%Z, mt)
    | Some m1 => match pm_leave (e_v2final e) u2 (e_v2 e) m1 with None => Some (0%Z, m1) | Some m2 => Some ((Z.of_nat (n - i) - 1)%Z, m2) end
    end = Some res /\ stepres ch i res.
Proof.
  intros He Hi HC Hat Hout Hleft Hu1 Hu2. destruct (edge_ends _ _ He) as (R1 & R2 & R3 & R4).
  destruct (pm_leave (e_v1final e) u1 (e_v1 e) mt) as [m1|] eqn:L1.
  2:{ eexists. split; [done|]. left. split; [done|]. intros Hg%good_cg. revert Hg. apply (leave_none ch i e He mt P HC Hat (e_v1final e) u1 (e_v1 e) mt); [lia|done| |exact L1]. intros Hf. apply (last_edge i e He). by left. }
  destruct (pm_leave (e_v2final e) u2 (e_v2 e) m1) as [m2|] eqn:L2.
  2:{ eexists. split; [done|]. left. split; [done|]. intros Hg%good_cg. revert Hg. apply (leave_none ch i e He mt P HC Hat (e_v2final e) u2 (e_v2 e) m1); [lia| | |exact L2].
      - rewrite (leave_get _ _ _ _ _ L1), decide_False; [done|lia].
      - intros Hf. apply (last_edge i e He). by right. }
  eexists. split; [done|]. right; right. split; [cbn; lia|]. exists P. cbn [snd]. by apply (leave_ok ch i e He mt P u1 u2 HC Hat Hout Hleft Hu1 Hu2 m1 m2).
Qed.

Lemma step_ok ch i mt P : i < n -> PInv ch i mt P -> exists res, pm_child g mt (n - i) (ch i) = Some res /\ stepres ch i res.
Proof.
  intros Hi HI. destruct (lookup_lt_is_Some_2 es i Hi) as [e He]. destruct (edge_ends _ _ He) as (R1 & R2 & R3 & R4).
  unfold pm_child. change (edgeSize g) with n. change (g_edgeInfo g) with es.
  destruct (Nat.ltb_spec (n - i) 1); [lia|]. destruct (Nat.ltb_spec n (n - i)); [lia|]. cbn [orb]. replace (n - (n - i)) with i by lia. rewrite He. cbn [mbind option_bind].
  destruct (ch i) eqn:Hch.
  2:{ apply (finish_ok ch i e mt P _ _ He Hi).
      - eapply conf_ext; [|apply (pi_conf _ _ _ _ HI)]. intros x y. rewrite (F_S ch i e x y He), Hch. split; [by left|]. intros [?|[? _]]; done.
      - apply (pi_at _ _ _ _ HI).
      - apply (pi_out _ _ _ _ HI).
      - apply (pi_left _ _ _ _ HI).
      - intros _. apply bool_decide_eq_true.
      - intros _. apply bool_decide_eq_true. }
  assert (Hno : forall mt', ~ cyclegood (m + m) nocol (F ch n) -> exists res, Some (0%Z, mt' : gmap nat nat) = Some res /\ stepres ch i res).
  { intros mt' Hg. eexists. split; [done|]. left. split; [done|]. by intros H1%good_cg. }
  destruct (Nat.eqb_spec (default (e_v1 e) (mt !! e_v1 e)) 0) as [Z1|Z1]; cbn [orb].
  { apply Hno. apply (full_stuck ch i mt P HI e He Hch (e_v1 e) (e_v2 e)); [apply edge_joins|lia|done]. }
  destruct (Nat.eqb_spec (default (e_v2 e) (mt !! e_v2 e)) 0) as [Z2|Z2]; cbn [orb].
  { apply Hno. apply (full_stuck ch i mt P HI e He Hch (e_v2 e) (e_v1 e)); [apply joins_sym, edge_joins|lia|done]. }
  destruct (e_v1final e && bool_decide (mt !! e_v1 e = None)) eqn:F1.
  { apply andb_true_iff in F1 as [F1 U1%bool_decide_eq_true]. apply Hno. apply (first_stuck ch i mt P HI e He Hch (e_v1 e) (e_v2 e)); [apply edge_joins|lia|done|]. apply (last_edge i e He). by left. }
  destruct (e_v2final e && bool_decide (mt !! e_v2 e = None)) eqn:F2.
  { apply andb_true_iff in F2 as [F2 U2%bool_decide_eq_true]. apply Hno. apply (first_stuck ch i mt P HI e He Hch (e_v2 e) (e_v1 e)); [apply joins_sym, edge_joins|lia|done|]. apply (last_edge i e He). by right. }
  destruct (path_at ch i mt P HI (e_v1 e) ltac:(lia) Z1) as (l & Hl & W1 & U1 & U1').
  destruct (path_at ch i mt P HI (e_v2 e) ltac:(lia) Z2) as (k & Hk & W2 & U2 & U2').
  destruct (Nat.eqb_spec (default (e_v1 e) (mt !! e_v1 e)) (e_v2 e)) as [Ed|Ed].
  - (* the path closes *)
    destruct l as [|a q]; [cbn in W1; lia|]. cbn in W1. assert (a = e_v2 e) as -> by congruence. cbn in Hl.
    assert (Hk' : k = e_v1 e :: rev q).
    { pose proof (c_rev _ _ _ _ (pi_conf _ _ _ _ HI) _ Hl) as Hr. rewrite rev_ends, app_comm_cons in Hr. exact (conf_snoc _ _ _ _ (pi_conf _ _ _ _ HI) _ _ _ Hk Hr). }
    subst k. cbn in W2. rewrite W2, Nat.eqb_refl. cbn [negb]. eexists. split; [done|]. destruct (pm_open (e_v1 e) (e_v2 e) mt) eqn:Eo.
    + left. split; [done|]. intros Hg%good_cg. apply pm_open_iff in Eo as (x & z & Hx & N1 & N2 & Hz). by apply (cl_open ch i mt P HI e He Hch q Hl x z Hx Hz N1 N2).
    + right; left. split; [done|]. split.
      * intros Hg%good_cg. by apply (cl_rest ch i mt P HI e He Hch q Hl).
      * apply (cl_done ch i mt P HI e He Hch q Hl). intros x z Hx N1 N2. destruct (decide (z = 0)) as [|Nz]; [done|]. exfalso.
        assert (pm_open (e_v1 e) (e_v2 e) mt = true) as Et; [|congruence]. apply pm_open_iff. exists x, z. split_and!; [done|done|done|lia].
  - apply (finish_ok ch i e (mt_take mt e) (Pj P (e_v1 e) (e_v2 e) l k) _ _ He Hi).
    + by apply (tk_conf ch i mt P HI e He l k Hl Hk W1).
    + intros x. by apply (tk_at ch i mt P HI e He l k Hl Hk W1 W2 Z1 Z2 Ed).
    + intros x. by apply (tk_out ch i mt P HI e He l k Hl Hk W1 W2).
    + intros x r a. by apply (tk_left ch i mt P HI e He l k Hl Hk W1 W2 Z1 Z2 Ed).
    + intros Hf. rewrite Hf in F1. cbn in F1. rewrite F1. split; [done|]. intros Hx. rewrite tk_get in Hx. destruct (decide _); [done|]. destruct (decide _); [done|]. rewrite decide_True in Hx by (by left). done.
    + intros Hf. rewrite Hf in F2. cbn in F2. rewrite F2. split; [done|]. intros Hx. rewrite tk_get in Hx. destruct (decide _); [done|]. destruct (decide _); [done|]. rewrite decide_True in Hx by (by right). done.
Qed.

(** ** the diagram *)
Definition chv (v : vec) (a : nat) : bool := negb (v (n - a) =? 0).
Lemma zdd_one sp s v k : (forall j, 1 <= j <= k -> v j = 0) -> zdd_eval sp k (-1) s v = true.
Proof.
  induction k as [|k IH]; intros H; cbn [zdd_eval]; [done|]. destruct (Z.eqb_spec (-1) (Z.of_nat (S k))); [lia|].
  rewrite H by lia. cbn. apply IH. intros j Hj. apply H. lia.
Qed.
Lemma zdd_one_inv sp s v k : zdd_eval sp k (-1) s v = true -> forall j, 1 <= j <= k -> v j = 0.
Proof.
  induction k as [|k IH]; cbn [zdd_eval]; intros H j Hj; [lia|]. destruct (Z.eqb_spec (-1) (Z.of_nat (S k))); [lia|].
  destruct (Nat.eqb_spec (v (S k)) 0); [|done]. destruct (decide (j = S k)) as [->|]; [done|]. apply IH; [done|lia].
Qed.
Lemma pm_eval v : forall k i mt P, k = n - i -> i <= n -> PInv (chv v) i mt P ->
  zdd_eval (pm_spec g) k (Z.of_nat k) mt v = true <-> good (chv v).
Proof.
  induction k as [|k IH]; intros i mt P Hk Hi HI.
  - assert (i = n) as -> by lia. cbn [zdd_eval]. split; [done|]. intros Hg%good_cg. by apply end_stuck in HI.
  - destruct (step_ok (chv v) i mt P ltac:(lia) HI) as (res & Eres & Hres). cbn [zdd_eval]. rewrite Z.eqb_refl. cbn [pm_spec get_child]. fold (pm_spec g).
    rewrite Nat2Z.id. replace (negb (v (S k) =? 0)) with (chv v i) by (unfold chv; by rewrite <- Hk). rewrite Hk, Eres. cbn [default id].
    destruct res as [l s]. cbn [fst snd] in *. destruct Hres as [[E1 Hg]|[[E1 Hg]|[E1 [P' HP]]]]; cbn [fst snd] in *; subst l.
    + change (id (0%Z, s)) with (0%Z, s). cbn iota beta. rewrite zdd_eval_zero. split; [done|]. by intros ?.
    + rewrite Hg. split.
      * intros Hz a Ha. unfold chv. rewrite (zdd_one_inv _ _ _ _ Hz) by lia. done.
      * intros Hz. apply zdd_one. intros j Hj. specialize (Hz (n - j) ltac:(lia)). unfold chv in Hz. replace (n - (n - j)) with j in Hz by lia. by apply negb_false_iff, Nat.eqb_eq in Hz.
    + replace (n - S i) with k by lia. apply (IH (S i) s P'); [lia|lia|exact HP].
Qed.
Lemma pm_sem v : 0 < n -> zdd_sem (pm_spec g) n v = true <-> good (chv v).
Proof. intros Hn. unfold zdd_sem. cbn [pm_spec get_root pm_root fst snd]. fold (pm_spec g). apply (pm_eval v n 0 _ P0); [lia|lia|]. by apply PInv_root. Qed.
Definition cset (ch : nat -> bool) (i : nat) (b : bool) (a : nat) : bool := if a =? i then b else ch a.
Lemma pm_reach l s : 0 < n -> reach (pm_spec g) l s -> exists i ch P, i < n /\ l = Z.of_nat (n - i) /\ PInv ch i s P.
Proof.
  intros Hn. induction 1 as [H|l s b Hr (i & ch & P & Hi & -> & HI) Hb Hp].
  - exists 0, (fun _ => false), P0. split; [lia|]. split; [cbn; unfold edgeSize; fold es n; lia|]. by apply PInv_root.
  - cbn [pm_spec get_child] in *. rewrite Nat2Z.id in *.
    assert (HI' : PInv (cset ch i (negb (b =? 0))) i s P). { eapply PInv_ext; [|exact HI]. intros a Ha. unfold cset. destruct (Nat.eqb_spec a i); [lia|done]. }
    destruct (step_ok _ i s P Hi HI') as (res & Eres & Hres). assert (cset ch i (negb (b =? 0)) i = negb (b =? 0)) as Eb by (unfold cset; by rewrite Nat.eqb_refl). rewrite Eb in Eres.
    rewrite Eres in *. unfold default, id in *. assert (Hp' : (0 < fst res)%Z) by exact Hp. clear Hp. destruct Hres as [[E1 _]|[[E1 _]|[E1 [P' HP]]]]; rewrite E1 in Hp'; [lia|lia|]. exists (S i), (cset ch i (negb (b =? 0))), P'. split; [lia|]. split; [done|done].
Qed.
Lemma pm_step l s b : 0 < n -> reach (pm_spec g) l s -> exists res, pm_child g s (Z.to_nat l) b = Some res /\ (-1 <= fst res < l)%Z.
Proof.
  intros Hn (i & ch & P & Hi & -> & HI)%pm_reach; [|done]. rewrite Nat2Z.id.
  assert (HI' : PInv (cset ch i b) i s P). { eapply PInv_ext; [|exact HI]. intros a Ha. unfold cset. destruct (Nat.eqb_spec a i); [lia|done]. }
  destruct (step_ok _ i s P Hi HI') as (res & Eres & Hres). unfold cset in Eres at 1. rewrite Nat.eqb_refl in Eres. exists res. split; [done|].
  destruct Hres as [[-> _]|[[-> _]|[-> _]]]; lia.
Qed.

End pm.
