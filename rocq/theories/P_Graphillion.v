From Coq Require Import Ascii String.
From Verif Require Import Base Sem M_Text S_Text P_Text M_Graphillion S_Graphillion.
Local Open Scope Z_scope.

(** * The text *)
Fixpoint join (c : ascii) (ws : list text) : text :=
  match ws with [] => [] | [w] => w | w :: ws => w ++ c :: join c ws end.
Lemma cut_ne c l : cut c l <> [].
Proof. destruct l as [|x l]; [done|]. cbn [cut]. destruct (Ascii.eqb x c); [done|]. by destruct (cut c l). Qed.
Lemma cut_inv c l : l = join c (cut c l) /\ Forall (fun w => c ∉ w) (cut c l).
Proof.
  induction l as [|x l [IH1 IH2]]; cbn [cut]; [split; [done|]; constructor; [set_solver|done]|].
  pose proof (cut_ne c l) as Hne. destruct (cut c l) as [|w ws] eqn:E; [done|].
  destruct (Ascii.eqb_spec x c) as [->|Hx].
  - split; [|constructor; [set_solver|done]]. cbn [join app]. rewrite IH1 at 1. done.
  - apply Forall_cons_1 in IH2 as [I1 I2]. split; [|constructor; [set_solver|done]].
    destruct ws; cbn [join app] in *; by rewrite IH1 at 1.
Qed.
Lemma join_lines c (ls : list text) : join c (ls ++ [[]]) = concat (map (fun l => l ++ [c]) ls).
Proof.
  induction ls as [|w ls IH]; [done|]. cbn [map concat app]. rewrite <- IH. rewrite <- app_assoc.
  destruct (ls ++ [[]]) eqn:E; [by destruct ls|]. done.
Qed.
Lemma lines_inv txt ls : lines_of txt = Some ls -> txt = concat (map (fun l => l ++ [nl]) ls) /\ Forall (fun w => nl ∉ w) ls.
Proof.
  unfold lines_of. fold nl. intros H. destruct (cut_inv nl txt) as [C1 C2].
  destruct (last (cut nl txt)) as [w|] eqn:E; [|done]. destruct w; [|done]. injection H as <-.
  apply last_Some in E as [ls' E]. rewrite E in *. rewrite removelast_last. rewrite join_lines in C1.
  apply Forall_app in C2 as [C2 _]. done.
Qed.
Lemma words_inv line ws : words_of line = ws ->
  exists wl, ws = map string_of_list_ascii wl /\ line = join blank wl /\ Forall (fun w => blank ∉ w) wl.
Proof. unfold words_of. fold blank. intros <-. exists (cut blank line). destruct (cut_inv blank line). done. Qed.

Lemma isdigit_of c : isdigit (Some c) = match digit_of c with Some _ => true | None => false end.
Proof. unfold isdigit, digit_of. by destruct (_ && _). Qed.
Lemma isspace_of c : isspace (Some c) = white c. Proof. done. Qed.
Lemma digit_of_val c d : digit_of c = Some d -> Z.of_nat d = Z.of_nat (nat_of_ascii c) - 48.
Proof.
  unfold digit_of. destruct (Nat.leb_spec 48 (nat_of_ascii c)); [|done]. destruct (_ <=? _)%nat; [|done].
  cbn [andb]. intros [=<-]. lia.
Qed.
Lemma digits_ok t : match t with [] => True | c :: _ => isdigit (Some c) = false end -> forall w v x,
  value w v = Some x -> digits (Z.of_nat v) (w ++ t) = (Z.of_nat x, t).
Proof.
  intros Ht w. induction w as [|c w IH]; intros v x H.
  - injection H as <-. cbn [app]. destruct t as [|c t]; [done|]. cbn [digits]. by rewrite Ht.
  - unfold value in H. cbn [ofold] in H. destruct (digit_of c) as [d|] eqn:E; [|done]. cbn [mbind option_bind] in H.
    cbn [app digits]. rewrite isdigit_of, E. rewrite <- (IH _ _ H). f_equal. apply digit_of_val in E. lia.
Qed.
Lemma number_inv w x : number_of (string_of_list_ascii w) = Some x ->
  value w 0 = Some x /\ exists c w', w = c :: w' /\ isdigit (Some c) = true.
Proof.
  unfold number_of. rewrite list_ascii_of_string_of_list_ascii. destruct w as [|c w]; [done|]. intros H. split; [done|].
  exists c, w. split; [done|]. rewrite isdigit_of. cbn [ofold] in H. by destruct (digit_of c).
Qed.
Lemma digit_nonspace c : isdigit (Some c) = true -> isspace (Some c) = false.
Proof.
  unfold isdigit, isspace. intros H. apply andb_true_iff in H as [H1 H2]. apply Nat.leb_le in H1, H2.
  replace (nat_of_ascii c <=? 13)%nat with false by (symmetry; apply Nat.leb_gt; lia).
  replace (nat_of_ascii c =? 32)%nat with false by (symmetry; apply Nat.eqb_neq; lia). by rewrite andb_false_r.
Qed.

(** a character that ends a word *)
Definition stop (c : ascii) : Prop := isdigit (Some c) = false.
Lemma stop_blank : stop blank. Proof. done. Qed.
Lemma stop_nl : stop nl. Proof. done. Qed.
(** what may precede a word *)
Definition pre (p : text) : Prop := p = [] \/ p = [blank].

Lemma get_word p c r f : pre p -> isspace (Some c) = false -> (2 <= f)%nat ->
  get_nonspace f (IS (p ++ c :: r) false false) = Some (Some c, IS r false false).
Proof.
  intros Hp Hc Hf. destruct f as [|[|f]]; [lia..|]. destruct Hp as [->| ->]; cbn [app get_nonspace i_get i_good negb andb i_eof i_fail i_rest].
  - by rewrite Hc.
  - replace (isspace (Some blank)) with true by done. by rewrite Hc.
Qed.
Lemma number_ok sign lo hi p w x c t : pre p -> number_of (string_of_list_ascii w) = Some x -> stop c ->
  lo <= Z.of_nat x <= hi ->
  i_number sign lo hi (IS (p ++ w ++ c :: t) false false) = (Z.of_nat x, IS (c :: t) false false).
Proof.
  intros Hp Hw Hc Hr. apply number_inv in Hw as (Hv & d & w' & -> & Hd).
  unfold i_number. cbn [i_good i_eof i_fail negb andb i_rest].
  assert (skip_ws (p ++ (d :: w') ++ c :: t) = (d :: w') ++ c :: t) as ->.
  { destruct Hp as [->| ->]; cbn [app skip_ws].
    - by rewrite digit_nonspace.
    - replace (isspace (Some blank)) with true by done. by rewrite digit_nonspace. }
  cbn [app]. assert (Ascii.eqb d "-" = false /\ Ascii.eqb d "+" = false) as [E1 E2].
  { split; apply Ascii.eqb_neq; by intros ->. }
  rewrite E1, E2, !andb_false_r.
  pose proof (digits_ok (c :: t) Hc (d :: w') 0%nat x Hv) as D. cbn [app] in D. change (Z.of_nat 0) with 0 in D. rewrite D.
  rewrite (proj2 (Nat.eqb_neq _ _)). 2: { cbn [List.length]. rewrite app_length. cbn [List.length]. lia. }
  destruct (Z.ltb_spec (Z.of_nat x) lo); [lia|]. destruct (Z.ltb_spec hi (Z.of_nat x)); [lia|]. done.
Qed.

Definition code (g : gref) : Z := match g with GB => 0 | GT => 1 | GId k => Z.of_nat k + 2 end.
Definition small (g : gref) : Prop := match g with GId k => Z.of_nat k < 2 ^ 62 | _ => True end.
Lemma readID_number p w x c t : pre p -> number_of (string_of_list_ascii w) = Some x -> stop c -> Z.of_nat x < 2 ^ 62 ->
  readID (IS (p ++ w ++ c :: t) false false) = Some (Z.of_nat x + 2, IS (c :: t) false false).
Proof.
  intros Hp Hw Hc Hx. destruct (number_inv _ _ Hw) as (Hv & d & w' & -> & Hd). unfold readID. cbn [i_rest app].
  rewrite get_word; [|done|by apply digit_nonspace|rewrite app_length; cbn [List.length]; lia].
  cbn [mbind option_bind]. rewrite Hd. cbn [i_unget i_fail i_rest].
  pose proof (number_ok false 0 (2 ^ 64 - 1) [] (d :: w') x c t ltac:(by left) Hw Hc ltac:(lia)) as E. cbn [app] in E. rewrite E.
  rewrite Z.mod_small by lia. done.
Qed.
Lemma readID_ok p w g c t : pre p -> read_gref (string_of_list_ascii w) = Some g -> stop c -> small g ->
  readID (IS (p ++ w ++ c :: t) false false) = Some (code g, IS (c :: t) false false).
Proof.
  intros Hp Hw Hc Hs. unfold read_gref in Hw.
  assert (forall s, String.eqb (string_of_list_ascii w) s = true -> w = list_ascii_of_string s) as Hword.
  { intros s E. apply String.eqb_eq in E. rewrite <- E. by rewrite list_ascii_of_string_of_list_ascii. }
  destruct (String.eqb _ "B") eqn:E1.
  { injection Hw as <-. apply Hword in E1 as ->. unfold readID. cbn [list_ascii_of_string app i_rest].
    rewrite get_word; [done|done|done|rewrite app_length; cbn [List.length]; lia]. }
  destruct (String.eqb _ "T") eqn:E2.
  { injection Hw as <-. apply Hword in E2 as ->. unfold readID. cbn [list_ascii_of_string app i_rest].
    rewrite get_word; [done|done|done|rewrite app_length; cbn [List.length]; lia]. }
  destruct (number_of _) as [k|] eqn:E3; [|done]. injection Hw as <-. by apply readID_number.
Qed.
Lemma skipLine_ok l t f : nl ∉ l -> (List.length l < f)%nat ->
  skipLine f (IS (l ++ nl :: t) false false) = Some (IS t false false).
Proof.
  revert f. induction l as [|c l IH]; intros f Hl Hf; (destruct f as [|f]; [cbn [List.length] in Hf; lia|]);
    cbn [app skipLine i_fail i_get i_good negb andb i_eof i_rest].
  - by rewrite Ascii.eqb_refl.
  - destruct (Ascii.eqb_spec c nl) as [->|Hne]; [exfalso; apply Hl; left|]. apply IH; [set_solver|cbn [List.length] in Hf; lia].
Qed.
Lemma skipSpace_ok c r : isspace (Some c) = false ->
  skipSpace (IS (c :: r) false false) = Some (Some c, IS (c :: r) false false).
Proof.
  intros Hc. unfold skipSpace. pose proof (get_word [] c r (S (List.length (c :: r))) ltac:(by left) Hc) as E. cbn [app] in E.
  cbn [i_rest]. rewrite E by (cbn [List.length]; lia). done.
Qed.

Definition add_line (z : gzdd) (g : gline) : option gzdd :=
  addNode z (Z.of_nat (g_id g) + 2) (GNode (Z.of_nat (g_index g)) (code (g_lo g)) (code (g_hi g))).
Definition fits (g : gline) : Prop :=
  Z.of_nat (g_id g) < 2 ^ 62 /\ Z.of_nat (g_index g) < 2 ^ 31 - 1 /\ small (g_lo g) /\ small (g_hi g).
Lemma read_node_ok z line g t : read_gline line = Some g -> fits g -> nl ∉ line ->
  read_one z (IS (line ++ nl :: t) false false) = z ← add_line z g; Some (z, IS t false false).
Proof.
  intros Hl (F1 & F2 & F3 & F4) Hnl. unfold read_gline in Hl.
  destruct (words_of line) as [|a [|b [|c [|d [|? ?]]]]] eqn:E; try done. apply words_inv in E as (wl & E1 & E2 & _).
  destruct wl as [|wa [|wb [|wc [|wd [|? ?]]]]]; try done. injection E1 as -> -> -> ->. cbn [join] in E2.
  destruct (number_of (string_of_list_ascii wa)) as [id|] eqn:Ea; [|done].
  destruct (number_of (string_of_list_ascii wb)) as [ix|] eqn:Eb; [|done].
  destruct (read_gref (string_of_list_ascii wc)) as [r0|] eqn:Ec; [|done].
  destruct (read_gref (string_of_list_ascii wd)) as [r1|] eqn:Ed; [|done]. injection Hl as <-.
  cbn [g_id g_index g_lo g_hi] in *. subst line.
  repeat (rewrite <- app_assoc; cbn [app]).
  destruct (number_inv _ _ Ea) as (_ & x & wa' & Hwa & Hx).
  unfold read_one. rewrite Hwa. cbn [app]. rewrite skipSpace_ok by by apply digit_nonspace. cbn [mbind option_bind]. rewrite Hx.
  pose proof (fun t => readID_number [] wa id blank t ltac:(by left) Ea stop_blank F1) as R1. rewrite Hwa in R1. cbn [app] in R1.
  rewrite R1. cbn [mbind option_bind].
  pose proof (fun t => number_ok true (- 2147483648) 2147483647 [blank] wb ix blank t ltac:(by right) Eb stop_blank ltac:(lia)) as R2.
  cbn [app] in R2. rewrite R2.
  pose proof (fun t => readID_ok [blank] wc r0 blank t ltac:(by right) Ec stop_blank F3) as R3. cbn [app] in R3.
  rewrite R3. cbn [mbind option_bind].
  pose proof (fun t => readID_ok [blank] wd r1 nl t ltac:(by right) Ed stop_nl F4) as R4. cbn [app] in R4.
  rewrite R4. cbn [mbind option_bind].
  unfold add_line. cbn [g_id g_index g_lo g_hi]. destruct (addNode z _ _) as [z'|]; [|done]. cbn [mbind option_bind i_rest].
  pose proof (skipLine_ok [] t (S (S (List.length (nl :: t)))) ltac:(set_solver) ltac:(cbn [List.length]; lia)) as S.
  cbn [app] in S. by rewrite S.
Qed.
Lemma read_other_ok z c l t : white c = false -> digit_of c = None -> nl ∉ (c :: l) ->
  read_one z (IS ((c :: l) ++ nl :: t) false false) = Some (z, IS t false false).
Proof.
  intros H1 H2 H3. unfold read_one. cbn [app]. rewrite skipSpace_ok by by rewrite isspace_of. cbn [mbind option_bind].
  rewrite isdigit_of, H2. cbn [mbind option_bind i_rest].
  rewrite (skipLine_ok (c :: l) t); [done|done|cbn [List.length]; rewrite app_length; cbn [List.length]; lia].
Qed.
Lemma read_loop_ok ls : forall gs z f, read_glines ls = Some gs -> Forall fits gs -> Forall (fun w => nl ∉ w) ls ->
  (List.length (concat (map (fun l => l ++ [nl]) ls)) < f)%nat ->
  read_loop f z (IS (concat (map (fun l => l ++ [nl]) ls)) false false) = ofold add_line gs z.
Proof.
  induction ls as [|[|c l] ls IH]; intros gs z f Hg Hfit Hnl Hf.
  - injection Hg as <-. destruct f as [|f]; [cbn in Hf; lia|]. cbn [map concat read_loop i_fail].
    replace (read_one z (IS [] false false)) with (Some (z, IS [] false true)) by done. cbn [mbind option_bind].
    by destruct f.
  - done.
  - cbn [read_glines] in Hg. inversion Hnl as [|? ? N1 N2]; subst. destruct (white c) eqn:Ew; [done|].
    destruct f as [|f]; [lia|]. cbn [map concat read_loop i_fail].
    assert (List.length (concat (map (fun l => l ++ [nl]) ls)) < f)%nat as Hf'.
    { cbn [map concat] in Hf. rewrite !app_length in Hf. cbn [List.length] in Hf. lia. }
    rewrite <- app_assoc. cbn [app]. change (c :: l ++ ?r) with ((c :: l) ++ r).
    destruct (digit_of c) as [d|] eqn:Ed.
    + destruct (read_gline (c :: l)) as [g|] eqn:Eg; [|done]. cbn [mbind option_bind] in Hg.
      destruct (read_glines ls) as [gs'|] eqn:Egs; [|done]. injection Hg as <-. inversion Hfit; subst.
      rewrite (read_node_ok z _ g _ Eg) by done. cbn [ofold]. destruct (add_line z g) as [z'|]; [|done]. cbn [mbind option_bind].
      by apply IH.
    + rewrite read_other_ok by done. cbn [mbind option_bind]. by apply IH.
Qed.
