(** The evaluator ZtddToCudd, and vectors as clauses. *)
From stdpp Require Import sorting.
From Verif Require Import Base Sem Tree M_Table M_Eval P_Eval P_Count M_Cnf S_Cnf P_Cnf1 P_Cnf2 P_Cnf3.
Local Open Scope Z_scope.

(** ** evaluation of a diagram of arity 3, stated on trees *)
Section tree_eval3.
  Context (d : dd) (Hd : dd_wf d) (H3 : d_ar d = 3%nat) (ev : evaluator) (I : ES ev -> Prop) (P : tree -> ET ev -> Prop) (e0 : ES ev).
  Notation n := (row (rt d)).
  Context (Hinit : exists e, e_init ev e0 n = Some e /\ I e).
  Context (Ht0 : forall e, I e -> exists e' v, e_term ev e 0 = Some (e', v) /\ I e' /\ P T0 v).
  Context (Ht1 : forall e, I e -> exists e' v, e_term ev e 1 = Some (e', v) /\ I e' /\ P T1 v).
  Context (Hn : forall e i Ta Tb Tc xa xb xc, I e -> (0 < i <= n)%nat -> (tlev Ta < i)%nat -> (tlev Tb < i)%nat -> (tlev Tc < i)%nat -> P Ta xa -> P Tb xb -> P Tc xc ->
    exists e' v, e_node ev e i [(xa, tlev Ta); (xb, tlev Tb); (xc, tlev Tc)] = Some (e', v) /\ I e' /\ P (TN i [Ta; Tb; Tc]) v).
  Context (Hdes : forall e i, I e -> exists e', e_destruct ev e i = Some e' /\ I e').
  Let Q (r c : nat) (v : ET ev) : Prop := exists T, rep (tab d) (mk r c) T /\ P T v.
  Lemma tree_evaluate3 : exists e v T, I e /\ rep (tab d) (rt d) T /\ P T v /\ evaluate ev e0 d = e_value ev e v.
  Proof.
    destruct (evaluate_ok ev d Hd I Q e0) as (e & v & He & (T & HT & HP) & E); [done| | |done|].
    - intros e j He Hj. destruct j as [|[|]]; [| |lia].
      + destruct (Ht0 e He) as (e' & v & E & He' & HP). exists e', v. split_and!; try done. exists T0. split; [by constructor|done].
      + destruct (Ht1 e He) as (e' & v & E & He' & HP). exists e', v. split_and!; try done. exists T1. split; [by constructor|done].
    - intros e i j p vs He Hi Hp HF. assert (length p = 3%nat) as Hl.
      { rewrite <- H3. destruct Hd as (_ & Hwf & _). apply (table_wf_arity _ _ Hwf _ _ Hp). cbn. lia. }
      destruct p as [|ga [|gb [|gc [|]]]]; try done. inversion HF as [|? xa ? l1 (A1 & A2 & Ta & A3 & A4) HF1]; subst.
      inversion HF1 as [|? xb ? l2 (B1 & B2 & Tb & B3 & B4) HF2]; subst. inversion HF2 as [|? xc ? l3 (C1 & C2 & Tc & C3 & C4) HF3]; subst. inversion HF3; subst.
      assert (rep (tab d) ga Ta) as Ra by (by eapply rep_code; [|exact A3]). assert (rep (tab d) gb Tb) as Rb by (by eapply rep_code; [|exact B3]). assert (rep (tab d) gc Tc) as Rc by (by eapply rep_code; [|exact C3]).
      pose proof (rep_lev _ _ _ Ra) as La. pose proof (rep_lev _ _ _ Rb) as Lb. pose proof (rep_lev _ _ _ Rc) as Lc.
      destruct (Hn e i Ta Tb Tc (fst xa) (fst xb) (fst xc) He Hi) as (e' & v & E & He' & HP); [lia|lia|lia|done|done|done|].
      exists e', v. destruct xa as [xa ?], xb as [xb ?], xc as [xc ?]. cbn [fst snd] in *. subst. rewrite La, Lb, Lc in E. split_and!; try done.
      exists (TN i [Ta; Tb; Tc]). split; [|done]. change i with (row (mk i j)) at 2. econstructor; [cbn; lia|exact Hp|repeat constructor; done|].
      constructor; [exact A2|]. constructor; [exact B2|]. constructor; [exact C2|constructor].
    - exists e, v, T. split_and!; try done. by eapply rep_code; [|exact HT].
  Qed.
End tree_eval3.

(** a vector as a clause is true under an assignment of values to levels *)
Definition hit (l : nat) (asg : nat -> bool) (w : vec) : Prop :=
  exists k, (1 <= k <= l)%nat /\ (w k = 1%nat /\ asg k = false \/ w k = 2%nat /\ asg k = true).
Definition conj (l : nat) (T : tree) (f : bfun) : Prop :=
  forall asg, f asg = true <-> forall w, vec_ok 3 w -> tzdd l T w = true -> hit l asg w.
Definition put (w : vec) (k b : nat) : vec := fun i => if (i =? k)%nat then b else w i.
Lemma put_at w k b : put w k b k = b.
Proof. unfold put. by rewrite Nat.eqb_refl. Qed.
Lemma put_below w l b k : (k <= l)%nat -> put w (S l) b k = w k.
Proof. intros. unfold put. destruct (Nat.eqb_spec k (S l)); [lia|done]. Qed.
Lemma put_ok w l b : (b < 3)%nat -> vec_ok 3 w -> vec_ok 3 (put w l b).
Proof. intros Hb Hw i. unfold put. destruct (i =? l)%nat; [done|apply Hw]. Qed.
Lemma put_tzdd l T w b : tzdd l T (put w (S l) b) = tzdd l T w.
Proof. apply tzdd_ext. intros k Hk. apply put_below. lia. Qed.
Lemma hit_put l asg w b : hit l asg (put w (S l) b) <-> hit l asg w.
Proof. unfold hit. split; intros (k & Hk & H); exists k; (split; [done|]); rewrite put_below in * by lia; done. Qed.
Lemma hit_S l asg w : hit (S l) asg w <-> hit l asg w \/ w (S l) = 1%nat /\ asg (S l) = false \/ w (S l) = 2%nat /\ asg (S l) = true.
Proof.
  split.
  - intros (k & Hk & H). destruct (decide (k = S l)) as [->|]; [by right|]. left. exists k. split; [lia|done].
  - intros [(k & Hk & H)|H]; [exists k; split; [lia|done]|]. exists (S l). split; [lia|done].
Qed.
Lemma conj_lift l T f : (tlev T < S l)%nat -> conj l T f -> conj (S l) T f.
Proof.
  intros Hl HC asg. rewrite (HC asg). split; intros H w Hw.
  - rewrite tzdd_skip by done. destruct (Nat.eqb_spec (w (S l)) 0) as [E|]; [|done]. intros Hz. apply hit_S. left. by apply H.
  - intros Hz. specialize (H (put w (S l) 0)). rewrite tzdd_skip, put_at, Nat.eqb_refl, put_tzdd in H by done. specialize (H ltac:(apply put_ok; [lia|done]) Hz).
    apply hit_S in H. rewrite put_at, hit_put in H. destruct H as [H|[[H _]|[H _]]]; [done|done|done].
Qed.
Lemma conj_lifts l m T f : (tlev T <= l <= m)%nat -> conj l T f -> conj m T f.
Proof. intros Hm HC. induction m as [|m IH]; [by replace 0%nat with l by lia|]. destruct (decide (l = S m)) as [->|]; [done|]. apply conj_lift; [lia|]. apply IH. lia. Qed.
Lemma conj_node l Tz Tn Tp fz fn fp : conj l Tz fz -> conj l Tn fn -> conj l Tp fp ->
  conj (S l) (TN (S l) [Tz; Tn; Tp]) (cudd_node (S l) (cudd_and fz fp) (cudd_and fz fn)).
Proof.
  intros Hz Hn Hp asg. unfold cudd_node, cudd_and. split.
  - intros Hf w Hw. rewrite tzdd_node. intros Ht. apply hit_S. pose proof (Hw (S l)) as Hw'. destruct (w (S l)) as [|[|[|k]]]; cbn [nth] in Ht; [| | |lia].
    + left. destruct (asg (S l)); apply andb_true_iff in Hf as [Hf _]; apply Hz; done.
    + destruct (asg (S l)) eqn:Ea; [|right; left; done]. left. apply andb_true_iff in Hf as [_ Hf]. apply Hn; done.
    + destruct (asg (S l)) eqn:Ea; [right; right; done|]. left. apply andb_true_iff in Hf as [_ Hf]. apply Hp; done.
  - intros H. assert (forall b w, (b < 3)%nat -> vec_ok 3 w -> tzdd l (nth b [Tz; Tn; Tp] T0) w = true -> hit l asg w \/ b = 1%nat /\ asg (S l) = false \/ b = 2%nat /\ asg (S l) = true) as HB.
    { intros b w Hb Hw Ht. specialize (H (put w (S l) b)). rewrite tzdd_node, put_at, put_tzdd, hit_S, put_at, hit_put in H. apply H; [by apply put_ok|done]. }
    assert (fz asg = true) as ->.
    { apply Hz. intros w Hw Ht. destruct (HB 0%nat w) as [?|[[? _]|[? _]]]; done || lia. }
    destruct (asg (S l)) eqn:Ea; cbn [andb].
    + apply Hn. intros w Hw Ht. destruct (HB 1%nat w) as [?|[[_ ?]|[? _]]]; done || lia.
    + apply Hp. intros w Hw Ht. destruct (HB 2%nat w) as [?|[[? _]|[_ ?]]]; done || lia.
Qed.
Lemma ztdd_to_cudd_ok d : dd_wf d -> d_ar d = 3%nat -> exists f T, evaluate ztdd_to_cudd tt d = Some f /\ rep (tab d) (rt d) T /\ conj (tlev T) T f.
Proof.
  intros Hd H3. destruct (tree_evaluate3 d Hd H3 ztdd_to_cudd (fun _ => True) (fun T f => conj (tlev T) T f) tt) as (e & f & T & _ & HT & HF & E).
  - by exists tt.
  - intros e _. eexists _, _. split; [done|]. split; [done|]. intros asg. split; [done|done].
  - intros e _. eexists _, _. split; [done|]. split; [done|]. intros asg. split; [done|]. intros H. destruct (H (fun _ => 0%nat)) as (k & Hk & _); [intros k; lia|done|]. cbn in Hk. lia.
  - intros e i Ta Tb Tc xa xb xc _ Hi La Lb Lc Pa Pb Pc. destruct i as [|l]; [lia|]. eexists _, _. split; [done|]. split; [done|]. cbn [tlev fst].
    apply conj_node; (eapply conj_lifts; [|eassumption]); lia.
  - intros e i _. by exists e.
  - exists f, T. done.
Qed.

(** ** vectors as clauses *)
Section vecs.
  Context (nv : nat).
  Lemma clause_of_elem l w y : (l <= nv)%nat -> vec_ok 3 w -> y ∈ clause_of nv l w <-> exists k, (1 <= k <= l)%nat /\ (w k = 1%nat /\ y = - (Z.of_nat nv - Z.of_nat k + 1) \/ w k = 2%nat /\ y = Z.of_nat nv - Z.of_nat k + 1).
  Proof.
    intros Hl Hw. induction l as [|l IH]; cbn [clause_of].
    - rewrite elem_of_nil. split; [done|]. intros (k & Hk & _). lia.
    - specialize (IH ltac:(lia)). assert ((exists k, (1 <= k <= S l)%nat /\ (w k = 1%nat /\ y = - (Z.of_nat nv - Z.of_nat k + 1) \/ w k = 2%nat /\ y = Z.of_nat nv - Z.of_nat k + 1)) <->
        y ∈ clause_of nv l w \/ (w (S l) = 1%nat /\ y = - (Z.of_nat nv - Z.of_nat (S l) + 1) \/ w (S l) = 2%nat /\ y = Z.of_nat nv - Z.of_nat (S l) + 1)) as ->.
      { rewrite IH. split.
        - intros (k & Hk & H). destruct (decide (k = S l)) as [->|]; [by right|]. left. exists k. split; [lia|done].
        - intros [(k & Hk & H)|H]; [exists k; split; [lia|done]|]. exists (S l). split; [lia|done]. }
      pose proof (Hw (S l)) as Hw'. destruct (w (S l)) as [|[|[|k]]]; [| | |lia]; rewrite ?elem_of_cons; naive_solver lia.
  Qed.
  Lemma clause_of_canon l w : (l <= nv)%nat -> canon nv (clause_of nv l w).
  Proof.
    induction l as [|l IH]; intros Hl; cbn [clause_of]; [by split; constructor|]. specialize (IH ltac:(lia)).
    assert (Forall (fun y => Z.of_nat nv - Z.of_nat (S l) + 1 < Z.abs y) (clause_of nv l w)) as HF. { apply Forall_forall. intros y Hy. pose proof (clause_above nv l w y ltac:(lia) Hy). lia. }
    destruct (w (S l)) as [|[|k]]; [done| |]; (apply canon_cons; split; [lia|]; split; [done|]; eapply Forall_impl; [exact HF|]; cbn; lia).
  Qed.
  Lemma stands_same w C : vec_ok 3 w -> Forall (fun x => x <> 0 /\ Z.abs x <= Z.of_nat nv) C -> stands_for nv w C <-> same_literals (clause_of nv nv w) C.
  Proof.
    intros Hw HC. unfold stands_for, same_literals, level_of. rewrite Forall_forall in HC. split.
    - intros H y. rewrite clause_of_elem by done. split.
      + intros (k & Hk & Hy). destruct (H (Z.of_nat nv - Z.of_nat k + 1)) as [H1 H2]; [lia|]. replace (Z.to_nat (Z.of_nat nv - (Z.of_nat nv - Z.of_nat k + 1) + 1)) with k in H1, H2 by lia. destruct Hy as [[E ->]|[E ->]]; tauto.
      + intros Hy. destruct (HC y Hy) as [Hy0 Hyr]. destruct (H (Z.abs y)) as [H1 H2]; [lia|]. exists (Z.to_nat (Z.of_nat nv - Z.abs y + 1)). split; [lia|]. destruct (Z.abs_spec y) as [[Hs E]|[Hs E]]; rewrite E in *.
        * right. split; [by apply H2|lia].
        * left. rewrite Z.opp_involutive in H1. split; [by apply H1|lia].
    - intros H x Hx. set (k := Z.to_nat (Z.of_nat nv - x + 1)). rewrite <- !H, !clause_of_elem by done. split; split.
      + intros E. exists k. split; [lia|]. left. split; [done|lia].
      + intros (j & Hj & [[E1 E2]|[E1 E2]]); [|lia]. by replace k with j by lia.
      + intros E. exists k. split; [lia|]. right. split; [done|lia].
      + intros (j & Hj & [[E1 E2]|[E1 E2]]); [lia|]. by replace k with j by lia.
  Qed.
  (** the vector of a clause *)
  Definition vec_of (C : clause) : vec := fun l =>
    let x := Z.of_nat nv - Z.of_nat l + 1 in if bool_decide (- x ∈ C) then 1%nat else if bool_decide (x ∈ C) then 2%nat else 0%nat.
  Lemma vec_of_ok C : vec_ok 3 (vec_of C).
  Proof. intros l. unfold vec_of. repeat case_bool_decide; lia. Qed.
  Lemma vec_of_stands C : ~ tautology C -> stands_for nv (vec_of C) C.
  Proof.
    intros HT x Hx. unfold vec_of, level_of. rewrite !Z2Nat.id by lia. replace (Z.of_nat nv - (Z.of_nat nv - x + 1) + 1) with x by lia.
    destruct (bool_decide_reflect (- x ∈ C)) as [H1|H1]; [|destruct (bool_decide_reflect (x ∈ C)) as [H2|H2]]; try (split; split; done).
    split; split; try done. intros H2. destruct HT. by exists x.
  Qed.
  Lemma hit_satisfies asg w C : Forall (fun x => x <> 0 /\ Z.abs x <= Z.of_nat nv) C -> stands_for nv w C -> hit nv asg w <-> satisfies (fun x => asg (level_of nv x)) C.
  Proof.
    intros HC HS. unfold satisfies. rewrite Forall_forall in HC. split.
    - intros (k & Hk & H). destruct (HS (Z.of_nat nv - Z.of_nat k + 1)) as [H1 H2]; [lia|]. assert (level_of nv (Z.of_nat nv - Z.of_nat k + 1) = k) as E by (unfold level_of; lia). rewrite E in H1, H2.
      destruct H as [[E1 E2]|[E1 E2]].
      + eexists. split; [apply H1, E1|]. right. split; [lia|]. rewrite Z.opp_involutive, E. done.
      + eexists. split; [apply H2, E1|]. left. split; [lia|]. by rewrite E.
    - intros (x & Hx & H). destruct (HC x Hx) as [Hx0 Hxr]. destruct (HS (Z.abs x)) as [H1 H2]; [lia|]. exists (level_of nv (Z.abs x)). split; [unfold level_of; lia|]. destruct H as [[Hp E]|[Hp E]].
      + right. rewrite Z.abs_eq in * by lia. split; [by apply H2|done].
      + left. rewrite Z.abs_neq in * by lia. rewrite Z.opp_involutive in H1. split; [by apply H1|done].
  Qed.
  Lemma taut_satisfied val C : Forall (fun x => x <> 0) C -> tautology C -> satisfies val C.
  Proof.
    intros H0 (x & Hx & Hy). rewrite Forall_forall in H0. pose proof (H0 x Hx). assert (exists z, 0 < z /\ z ∈ C /\ - z ∈ C) as (z & Hz & H1 & H2).
    { destruct (decide (0 < x)) as [|]; [by exists x|]. exists (- x). rewrite Z.opp_involutive. split; [lia|done]. }
    destruct (val z) eqn:E; [exists z|exists (- z)]; (split; [done|]); [left|right]; (split; [lia|]); rewrite ?Z.opp_involutive; done.
  Qed.
End vecs.
