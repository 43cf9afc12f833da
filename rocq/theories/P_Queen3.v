(** NQueenZdd and NRookZdd: reachable states, memory safety, contract. *)
From Verif Require Import Base Sem M_Queen S_Queen P_Queen P_Queen2.
Local Open Scope nat_scope.

Section queens.
Context (Q : queens).
Notation n := (q_n Q).
Context (Hn : n <= 31).
Notation sp := (queen_spec Q).
Context (Hpos : 1 <= n).
Context (Htop : (q_take Q = false /\ q_top Q = n * n) \/ (q_take Q = true /\ exists j, j < n /\ q_top Q = (n - 1) * n + j + 1)).

Definition good (l : Z) (s : list N) : Prop :=
  exists i j, l = Z.of_nat (i * n + j + 1) /\ i < n /\ j < n /\ arr_ok Q s /\
    (at_ok Q i j s /\ low Q (i * n + j + 1) \/ q_take Q = true /\ i * n + j + 1 = q_top Q).

Lemma good_root : good (fst (get_root sp)) (snd (get_root sp)).
Proof.
  cbn [queen_spec get_root]. rewrite (root_eq Q Hn). cbn [default id fst snd]. destruct Htop as [[Hf Ht]|(Hf & j & Hj & Ht)].
  - exists (n - 1), (n - 1). split; [rewrite Ht; f_equal; nia|]. split; [lia|]. split; [lia|]. split; [by apply full_arr|]. left. split.
    + constructor; [lia|lia|by apply full_arr|]. intros c Hc. rewrite (full_view Q Hn) in Hc. apply andb_true_iff in Hc as [_ Hc]. apply Nat.ltb_lt in Hc. lia.
    + unfold low. by rewrite Hf.
  - exists (n - 1), j. rewrite Ht. split; [done|]. split; [lia|]. split; [lia|]. split; [by apply full_arr|]. by right.
Qed.
Lemma good_child l s b : good l s ->
  exists code s', q_child Q s (Z.to_nat l) b = Some (code, s') /\ (-1 <= code < l)%Z /\ ((0 < code)%Z -> good code s').
Proof.
  intros (i & j & -> & Hi & Hj & Hs & H). rewrite Nat2Z.id.
  assert (forall code s', child_spec Q i j s b code s' -> i * n + j + 1 <= q_top Q ->
    (-1 <= code < Z.of_nat (i * n + j + 1))%Z /\ ((0 < code)%Z -> good code s')) as Hcs.
  { intros code s' HC Hle. destruct HC as [[-> _]|[[-> _]|(i' & j' & -> & Hlt & HA & _)]]; [split; [lia|lia]..|].
    split; [lia|]. intros _. exists i', j'. destruct HA as [A1 A2 A3 A4]. split_and!; try done. left. split; [by constructor|]. intros _. lia. }
  assert (i * n + j + 1 <= q_top Q) as Hle.
  { destruct H as [[_ Hl]|[_ ->]]; [|done]. destruct (q_take Q) eqn:Et; [unfold low in Hl; specialize (Hl Et); lia|].
    destruct Htop as [[_ ->]|[? _]]; [|congruence]. by apply square_level. }
  destruct b.
  - destruct (take_ok Q Hn i j s Hi Hj Hs) as (code & s' & E & HC). exists code, s'. split; [done|]. by apply Hcs.
  - destruct (q_take Q && (i * n + j + 1 =? q_top Q)) eqn:Et.
    + exists 0%Z, s. split; [|split; lia]. unfold q_child. destruct (Nat.eqb_spec (i * n + j + 1) 0) as [|_]; [lia|]. by rewrite Et.
    + destruct H as [[HA Hl]|[H1 H2]].
      * destruct (leave_ok Q Hn i j s HA Et) as (code & s' & E & HC). exists code, s'. split; [done|]. by apply Hcs.
      * rewrite H1, H2, Nat.eqb_refl in Et. done.
Qed.
Lemma reach_good l s : reach sp l s -> good l s.
Proof.
  induction 1 as [_|l s b Hr IH Hb Hc]; [apply good_root|].
  destruct (good_child l s (negb (b =? 0)) IH) as (code & s' & E & Hlev & H).
  cbn [queen_spec get_child] in *. rewrite E in Hc |- *. cbn [default id fst snd] in *. by apply H.
Qed.
Lemma reach_lev l s b : reach sp l s -> (-1 <= fst (get_child sp s l b) < l)%Z.
Proof.
  intros Hr. destruct (good_child l s (negb (b =? 0)) (reach_good l s Hr)) as (code & s' & E & Hlev & H).
  cbn [queen_spec get_child]. rewrite E. done.
Qed.
Lemma queen_contract : spec_ok sp /\ spec_congr sp /\ one_code sp /\ shareable sp.
Proof.
  split_and!.
  - constructor; [simpl; lia| |].
    + intros l s b Hr Hb. by apply reach_lev.
    + intros l s s' _ _ H. apply bool_decide_eq_true in H. subst. by intros bs _.
  - constructor; cbn [queen_spec equal_to].
    + intros. by apply bool_decide_eq_true.
    + intros. apply bool_decide_ext. split; congruence.
    + intros l s s' s'' _ _ _ H1 H2. apply bool_decide_eq_true in H1, H2. subst. by apply bool_decide_eq_true.
    + intros l s s' b _ _ _ H. apply bool_decide_eq_true in H. subst. split; [done|]. intros _. by apply bool_decide_eq_true.
  - split.
    + cbn [queen_spec get_root]. rewrite (root_eq Q Hn). cbn. lia.
    + intros l s b Hr Hb. by apply reach_lev.
  - split; cbn [queen_spec equal_to hash_code].
    + intros. apply bool_decide_ext. split; congruence.
    + intros l s s' H. apply bool_decide_eq_true in H. by subst.
Qed.
End queens.
