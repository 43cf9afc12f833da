(** Concrete specifications used to exhibit non-trivial instances of the theorems. *)
From Verif Require Import Base Sem.
Local Open Scope Z_scope.

(** docs/userguide.md, class Combination: choose k out of n items. *)
Definition comb (n k : nat) : spec := {|
  St := nat;
  ar := 2;
  get_root := (Z.of_nat n, 0%nat);
  get_child := fun s level b =>
    let s' := (s + b)%nat in
    let l := level - 1 in
    (if l <=? 0 then (if (s' =? k)%nat then -1 else 0)
     else if (k <? s')%nat then 0
     else if Z.of_nat s' + l <? Z.of_nat k then 0
     else l, s');
  equal_to := fun _ s s' => (s =? s')%nat;
  hash_code := fun _ s => N.of_nat s
|}.

(** a specification that skips levels: x_l = 1 for the given (decreasing) levels *)
Definition forced (ls : list Z) : spec := {|
  St := list Z;
  ar := 2;
  get_root := (match ls with [] => -1 | l :: _ => l end, ls);
  get_child := fun s level b =>
    if (b =? 0)%nat then (0, s)
    else match s with
         | [] => (-1, s)
         | _ :: s' => (match s' with [] => -1 | l :: _ => l end, s')
         end;
  equal_to := fun _ s s' => bool_decide (s = s');
  hash_code := fun _ s => N.of_nat (length s)
|}.

Lemma comb_congr n k : spec_congr (comb n k).
Proof.
  constructor; simpl.
  - intros. apply Nat.eqb_refl.
  - intros. apply Nat.eqb_sym.
  - intros l s s' s'' _ _ _ H1 H2. apply Nat.eqb_eq in H1, H2. subst. apply Nat.eqb_refl.
  - intros l s s' b _ _ _ H. apply Nat.eqb_eq in H. subst. split; [done|]. intros _. apply Nat.eqb_refl.
Qed.

Lemma comb_ok n k : spec_ok (comb n k).
Proof.
  constructor.
  - simpl; lia.
  - intros l s b Hr _. assert (0 < l) by (by destruct Hr). cbn [comb get_child fst].
    destruct (Z.leb_spec (l - 1) 0).
    { destruct (s + b =? k)%nat; lia. }
    destruct (k <? s + b)%nat; [lia|]. destruct (Z.of_nat (s + b) + (l - 1) <? Z.of_nat k); lia.
  - intros l s s' _ _ H. apply Nat.eqb_eq in H. subst. by intros bs _.
Qed.

Lemma comb_one_code n k : one_code (comb n k).
Proof.
  split; [simpl; lia|]. intros l s b Hr _. assert (0 < l) by (by destruct Hr). cbn [comb get_child fst].
  destruct (Z.leb_spec (l - 1) 0).
  { destruct (s + b =? k)%nat; lia. }
  destruct (k <? s + b)%nat; [lia|]. destruct (Z.of_nat (s + b) + (l - 1) <? Z.of_nat k); lia.
Qed.

(** decreasing list of positive levels *)
Fixpoint decr (ls : list Z) : bool :=
  match ls with
  | [] => true
  | l :: ls' => (0 <? l) && (match ls' with [] => true | l' :: _ => l' <? l end) && decr ls'
  end.

Lemma forced_reach ls : decr ls = true ->
  forall l s, reach (forced ls) l s -> decr s = true /\ exists s', s = l :: s'.
Proof.
  intros Hd l s. induction 1 as [H|l s b Hr IH Hb Hp].
  - simpl in *. split; [done|]. destruct ls; [lia|]. by eexists.
  - destruct IH as [Hs [s' ->]]. cbn [forced get_child St] in *.
    destruct (b =? 0)%nat; [simpl in Hp; lia|]. cbn [fst snd] in *.
    cbn [decr] in Hs. apply andb_true_iff in Hs as [_ Hs]. split; [done|].
    destruct s'; [lia|]. by eexists.
Qed.

Lemma forced_ok ls : decr ls = true -> spec_ok (forced ls).
Proof.
  intros Hd. constructor.
  - simpl; lia.
  - intros l s b Hr _. destruct (forced_reach ls Hd l s Hr) as [Hs [s' ->]].
    pose proof (reach (forced ls) l) as _.
    cbn [decr] in Hs. apply andb_true_iff in Hs as [Hs _]. apply andb_true_iff in Hs as [H1 H2].
    apply Z.ltb_lt in H1. cbn [forced get_child]. destruct (b =? 0)%nat; [simpl; lia|]. cbn [fst].
    destruct s'; [lia|]. by apply Z.ltb_lt.
  - intros l s s' _ _ H. simpl in H. apply bool_decide_eq_true in H. subst. by intros bs _.
Qed.

Lemma forced_one_code ls : decr ls = true -> one_code (forced ls).
Proof.
  intros Hd. split.
  - simpl. destruct ls; [lia|]. cbn [decr] in Hd. apply andb_true_iff in Hd as [Hs _].
    apply andb_true_iff in Hs as [H1 H2]. apply Z.ltb_lt in H1. lia.
  - intros l s b Hr _. destruct (forced_reach ls Hd l s Hr) as [Hs [s' ->]].
    cbn [forced get_child]. destruct (b =? 0)%nat; [simpl; lia|]. cbn [fst].
    cbn [decr] in Hs. apply andb_true_iff in Hs as [_ Hs].
    destruct s'; [lia|]. cbn [decr] in Hs. apply andb_true_iff in Hs as [Hs _].
    apply andb_true_iff in Hs as [H1 _]. apply Z.ltb_lt in H1. lia.
Qed.

(** vectors from lists: entry for level l is the l-th element (levels start at 1) *)
Definition vec_of (bs : list nat) : vec := fun l => nth (l - 1) bs 0%nat.
Lemma vec_of_ok bs a : (0 < a)%nat -> forallb (fun b => b <? a)%nat bs = true -> vec_ok a (vec_of bs).
Proof.
  intros Ha H l. unfold vec_of. rewrite forallb_forall in H.
  destruct (decide (l - 1 < length bs)%nat) as [Hl|Hl].
  - apply Nat.ltb_lt, H, nth_In, Hl.
  - rewrite nth_overflow by lia. done.
Qed.
