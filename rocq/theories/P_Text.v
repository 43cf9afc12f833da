From Coq Require Import Ascii String.
From Verif Require Import Base M_Text S_Text.
Local Open Scope nat_scope.

Lemma not_in_b (c : ascii) l : existsb (Ascii.eqb c) l = false -> c ∉ l.
Proof.
  intros H Hin. assert (existsb (Ascii.eqb c) l = true); [|congruence].
  apply existsb_exists. exists c. split; [by apply elem_of_list_In|]. apply Ascii.eqb_refl.
Qed.
Lemma cut_none c l : c ∉ l -> cut c l = [l].
Proof.
  induction l as [|x l IH]; intros H; [done|]. cbn [cut].
  destruct (Ascii.eqb_spec x c) as [->|Hne]; [exfalso; apply H; by left|].
  rewrite IH; [done|]. intros ?. apply H. by right.
Qed.
Lemma cut_app c w l : c ∉ w -> cut c (w ++ c :: l) = w :: cut c l.
Proof.
  induction w as [|x w IH]; intros H; cbn [app cut].
  - destruct (Ascii.eqb_spec c c); done.
  - destruct (Ascii.eqb_spec x c) as [->|Hne]; [exfalso; apply H; by left|].
    rewrite IH; [done|]. intros ?. apply H. by right.
Qed.
Lemma cut_lines c (ls : list text) : Forall (fun l => c ∉ l) ls ->
  cut c (concat (map (fun l => l ++ [c]) ls)) = ls ++ [[]].
Proof.
  induction 1 as [|l ls Hl _ IH]; [done|]. cbn [map concat]. rewrite <- app_assoc. cbn [app].
  rewrite cut_app by done. by rewrite IH.
Qed.
Lemma lines_of_ok (ls : list text) : Forall (fun l => nl ∉ l) ls ->
  lines_of (concat (map (fun l => l ++ [nl]) ls)) = Some ls.
Proof.
  intros H. unfold lines_of. fold nl. rewrite cut_lines by done. rewrite last_snoc. f_equal. apply removelast_last.
Qed.

(** ** decimal numbers *)
Definition digit (c : ascii) : Prop := 48 <= nat_of_ascii c <= 57.
Lemma digit_ascii k : k < 10 -> digit (ascii_of_nat (48 + k)) /\ digit_of (ascii_of_nat (48 + k)) = Some k.
Proof.
  intros H. unfold digit, digit_of. rewrite nat_ascii_embedding by lia.
  split; [lia|]. replace (48 <=? 48 + k) with true by (symmetry; apply Nat.leb_le; lia).
  replace (48 + k <=? 57) with true by (symmetry; apply Nat.leb_le; lia). cbn [andb]. f_equal. lia.
Qed.

Definition value (l : text) (v : nat) : option nat := ofold (fun v c => d ← digit_of c; Some (10 * v + d)) l v.
Lemma value_go l : forall v, Forall digit l -> exists x, value l v = Some x.
Proof.
  induction l as [|c l IH]; intros v H; [by exists v|]. inversion H as [|? ? Hc Hl]; subst.
  unfold value. cbn [ofold]. unfold digit_of. unfold digit in Hc.
  destruct (Nat.leb_spec 48 (nat_of_ascii c)); [|lia]. destruct (Nat.leb_spec (nat_of_ascii c) 57); [|lia].
  cbn [andb mbind option_bind]. apply IH. done.
Qed.

Lemma dec_go_ok f : forall n acc, n < f -> Forall digit acc ->
  Forall digit (dec_go f n acc) /\ dec_go f n acc <> [] /\ value (dec_go f n acc) 0 = value acc n.
Proof.
  induction f as [|f IH]; intros n acc Hn Ha; [lia|]. cbn [dec_go].
  destruct (digit_ascii (n mod 10)) as [D1 D2]; [apply Nat.mod_upper_bound; lia|].
  pose proof (Nat.div_mod n 10 ltac:(lia)) as E.
  destruct (Nat.eqb_spec (n / 10) 0) as [Hz|Hz].
  - split_and!; [by constructor|done|]. unfold value. cbn [ofold]. rewrite D2. cbn [mbind option_bind].
    replace (10 * 0 + n mod 10) with n by lia. done.
  - assert (n / 10 < n) as Hlt. { apply Nat.div_lt; [|lia]. destruct n; [done|lia]. }
    destruct (IH (n / 10) (ascii_of_nat (48 + n mod 10) :: acc)) as (I1 & I2 & I3); [lia|by constructor|].
    split_and!; [done|done|]. rewrite I3. unfold value at 1. cbn [ofold]. rewrite D2. cbn [mbind option_bind].
    rewrite <- E. done.
Qed.
Lemma dec_digits n : Forall digit (dec n).
Proof. by apply dec_go_ok; [lia|constructor]. Qed.
Lemma dec_ne n : dec n <> [].
Proof. by apply dec_go_ok; [lia|constructor]. Qed.
Lemma number_dec n : number_of (string_of_list_ascii (dec n)) = Some n.
Proof.
  unfold number_of. rewrite list_ascii_of_string_of_list_ascii.
  destruct (dec n) as [|c l] eqn:E; [by apply dec_ne in E|]. rewrite <- E. change (value (dec n) 0 = Some n).
  unfold dec. rewrite (proj2 (proj2 (dec_go_ok (S n) n [] ltac:(lia) ltac:(constructor)))). done.
Qed.
Lemma dec_not c n : ~ digit c -> c ∉ dec n.
Proof. intros H Hin. pose proof (dec_digits n) as D. rewrite Forall_forall in D. by apply H, D. Qed.
Lemma nl_not_digit : ~ digit nl. Proof. unfold digit, nl. rewrite nat_ascii_embedding by lia. lia. Qed.
Lemma blank_not_digit : ~ digit blank. Proof. unfold digit, blank. rewrite nat_ascii_embedding by lia. lia. Qed.
Lemma nl_dec n : nl ∉ dec n. Proof. apply dec_not, nl_not_digit. Qed.
Lemma blank_dec n : blank ∉ dec n. Proof. apply dec_not, blank_not_digit. Qed.

Lemma words_1 w : blank ∉ w -> words_of w = [string_of_list_ascii w].
Proof. intros H. unfold words_of. fold blank. by rewrite cut_none. Qed.
Lemma words_cons w l : blank ∉ w -> words_of (w ++ blank :: l) = string_of_list_ascii w :: words_of l.
Proof. intros H. unfold words_of. fold blank. by rewrite cut_app. Qed.
