(** Reading graphs. *)
From stdpp Require Import strings gmap.
From Coq Require Import Ascii String.
From Verif Require Import Base S_Text M_Text M_Graph M_Graphillion P_Text P_Graphillion P_Graph3 M_GraphIO S_GraphIO.
Local Open Scope nat_scope.

Lemma space_white c : isspace (Some c) = whitespace c.
Proof. done. Qed.
Lemma white_nl : whitespace nl = true.
Proof. done. Qed.

(** ** Edge lists *)
Definition fed (st : ere) (l : text) : option ere := ofold (fun st c => er_step st (Some c)) l st.

Lemma er_loop_fed f l : forall st, List.length l < f ->
  er_loop f (IS l false false) st =
  (st' ← fed st l; er_step st' None).
Proof.
  revert l. induction f as [|f IH]; intros l st Hf; [lia|]. cbn [er_loop i_fail i_get i_good negb andb i_eof i_rest].
  destruct l as [|c l].
  - unfold fed. cbn [ofold mbind option_bind]. destruct (er_step st None); [|done]. cbn [mbind option_bind].
    by destruct f.
  - unfold fed. cbn [ofold]. destruct (er_step st (Some c)) as [st'|]; [|done]. cbn [mbind option_bind].
    cbn [List.length] in Hf. rewrite IH by lia. done.
Qed.

Lemma fed_cons st c l : fed st (c :: l) = (st' ← er_step st (Some c); fed st' l).
Proof. done. Qed.

(** the words already completed in the current line *)
Definition done_words (v1 v2 : text) : list string :=
  (if is_empty v1 then [] else [str v1]) ++ (if is_empty v2 then [] else [str v2]).

Lemma fed_line l : nl ∉ l -> forall v v1 v2 es, (v1 = [] -> v2 = []) ->
  fed (Ere v v1 v2 es) (l ++ [nl]) =
  match done_words v1 v2 ++ words_from v l with
  | [] => Some (Ere [] [] [] es)
  | [a; b] => Some (Ere [] [] [] (es ++ [(a, b)]))
  | _ => None
  end.
Proof.
  induction l as [|c l IH]; intros Hnl v v1 v2 es H12.
  - unfold fed. cbn [app ofold er_step]. rewrite space_white, white_nl. unfold done_words.
    destruct v1 as [|a1 v1]; [rewrite (H12 eq_refl)|]; destruct v as [|a v]; try destruct v2 as [|a2 v2]; done.
  - cbn [app]. rewrite fed_cons. cbn [er_step]. rewrite space_white. cbn [words_from].
    assert (Ascii.eqb c nl = false) as Hc by (apply Ascii.eqb_neq; set_solver).
    assert (nl ∉ l) as Hl by set_solver. rewrite Hc. destruct (whitespace c).
    + unfold done_words.
      destruct v as [|a v].
      { cbn [is_empty mbind option_bind]. rewrite IH by done. done. }
      cbn [is_empty]. destruct v1 as [|a1 v1]; cbn [is_empty mbind option_bind].
      { rewrite (H12 eq_refl). rewrite IH by done. done. }
      destruct v2 as [|a2 v2]; cbn [is_empty mbind option_bind].
      { rewrite IH by done. done. }
      cbn [app]. by destruct (words_from [] l).
    + cbn [default mbind option_bind]. rewrite IH by done. done.
Qed.

Lemma fed_app st l l' : fed st (l ++ l') = (st' ← fed st l; fed st' l').
Proof.
  unfold fed. revert st. induction l as [|c l IH]; intros st; [done|]. cbn [app ofold].
  destruct (er_step st (Some c)); [|done]. cbn [mbind option_bind]. apply IH.
Qed.

Lemma fed_lines ls : Forall (fun l => nl ∉ l) ls -> forall es,
  fed (Ere [] [] [] es) (List.concat (map (fun l => l ++ [nl]) ls)) =
  (es' ← edge_lines ls; Some (Ere [] [] [] (es ++ es'))).
Proof.
  induction 1 as [|l ls Hl Hls IH]; intros es; cbn [map List.concat edge_lines mbind option_bind].
  - by rewrite app_nil_r.
  - rewrite fed_app, fed_line by done. cbn [done_words is_empty app]. fold (line_words l).
    destruct (line_words l) as [|a [|b [|? ?]]]; cbn [mbind option_bind]; [by rewrite IH|done| |done].
    rewrite IH. destruct (edge_lines ls); cbn [mbind option_bind]; [|done]. by rewrite <- app_assoc.
Qed.

Lemma readEdges_ok es0 txt ls : lines_of txt = Some ls ->
  readEdges es0 txt = (es ← edge_lines ls; Some (es0 ++ es)).
Proof.
  intros H. destruct (lines_inv _ _ H) as [-> Hls]. unfold readEdges. rewrite er_loop_fed by lia. rewrite fed_lines by done.
  by destruct (edge_lines ls).
Qed.

(** ** a last line without line end *)
Lemma fed_es l : nl ∉ l -> forall v v1 v2 es, (v1 = [] -> v2 = []) ->
  fed (Ere v v1 v2 es) l = None \/ exists v' a b, fed (Ere v v1 v2 es) l = Some (Ere v' a b es) /\ (a = [] -> b = []) /\ (forall l2 c, l = l2 ++ [c] -> whitespace c = true -> v' = []).
Proof.
  induction l as [|c l IH]; intros Hnl v v1 v2 es H12.
  - right. exists v, v1, v2. split; [done|]. split; [done|]. intros l2 c E. by destruct l2.
  - rewrite fed_cons. cbn [er_step]. rewrite space_white. assert (Ascii.eqb c nl = false) as Hc by (apply Ascii.eqb_neq; set_solver). assert (nl ∉ l) as Hl by set_solver. rewrite Hc.
    assert (Hgo : forall v0 a0 b0 : text, (a0 = [] -> b0 = []) -> (l = [] -> whitespace c = true -> v0 = []) ->
      fed (Ere v0 a0 b0 es) l = None \/ exists v' a b, fed (Ere v0 a0 b0 es) l = Some (Ere v' a b es) /\ (a = [] -> b = []) /\ (forall l2 c', c :: l = l2 ++ [c'] -> whitespace c' = true -> v' = [])).
    { intros v0 a0 b0 H0 Hv. destruct (IH Hl v0 a0 b0 es H0) as [->|(v' & a & b & E & Hab & Hv')]; [by left|]. right. exists v', a, b. split; [done|]. split; [done|].
      intros l2 c' E2 E3. destruct l2 as [|x l2]; [|injection E2 as -> E2; by eapply Hv']. injection E2 as -> ->. unfold fed in E. cbn [ofold] in E. injection E as <- _ _. by apply Hv. }
    destruct (whitespace c) eqn:Ew.
    + destruct v as [|x v]; cbn [is_empty mbind option_bind]; [by apply Hgo|].
      destruct v1 as [|x1 v1]; cbn [is_empty mbind option_bind]; [rewrite (H12 eq_refl); by apply Hgo|].
      destruct v2 as [|x2 v2]; cbn [is_empty mbind option_bind]; [by apply Hgo|by left].
    + cbn [default mbind option_bind]. by apply Hgo.
Qed.
Lemma fed_word w : Forall (fun c => whitespace c = false) w -> forall v v1 v2 es, fed (Ere v v1 v2 es) w = Some (Ere (v ++ w) v1 v2 es).
Proof.
  induction 1 as [|c w Hc Hw IH]; intros v v1 v2 es; [unfold fed; cbn [ofold]; by rewrite app_nil_r|]. rewrite fed_cons. cbn [er_step]. rewrite space_white, Hc. cbn [default mbind option_bind].
  rewrite IH. by rewrite <- app_assoc.
Qed.
Lemma edge_lines_app ls l : edge_lines (ls ++ [l]) = (es ← edge_lines ls; match line_words l with [] => Some es | [a; b] => Some (es ++ [(a, b)]) | _ => None end).
Proof.
  induction ls as [|l' ls IH]; cbn [app edge_lines mbind option_bind]; [by destruct (line_words l) as [|a [|b [|? ?]]]|].
  destruct (line_words l') as [|a [|b [|? ?]]]; [done|done| |done]. rewrite IH. destruct (edge_lines ls); [|done]. cbn [mbind option_bind]. by destruct (line_words l) as [|a' [|b' [|? ?]]].
Qed.
Lemma readEdges_last es0 txt ls l1 w : lines_of txt = Some ls -> nl ∉ l1 -> (l1 = [] \/ exists l2 c, l1 = l2 ++ [c] /\ whitespace c = true) -> Forall (fun c => whitespace c = false) w ->
  readEdges es0 (txt ++ l1 ++ w) = (es ← edge_lines (ls ++ [l1]); Some (es0 ++ es)).
Proof.
  intros H Hnl Hl1 Hw. destruct (lines_inv _ _ H) as [-> Hls]. unfold readEdges. rewrite er_loop_fed by lia. rewrite !fed_app, fed_lines by done. rewrite edge_lines_app.
  destruct (edge_lines ls) as [es|]; [|done]. cbn [mbind option_bind]. rewrite fed_app. pose proof (fed_line l1 Hnl [] [] [] (es0 ++ es) ltac:(done)) as HL. rewrite fed_app in HL. cbn [done_words is_empty app] in HL. fold (line_words l1) in HL.
  destruct (fed_es l1 Hnl [] [] [] (es0 ++ es) ltac:(done)) as [E|(v' & a & b & E & Hab & Hv)]; rewrite E in HL |- *; cbn [mbind option_bind] in HL |- *.
  - by destruct (line_words l1) as [|x [|y [|? ?]]].
  - assert (v' = []) as ->. { destruct Hl1 as [->|(l2 & c & E2 & Hc)]; [unfold fed in E; cbn [ofold] in E; by injection E as <- _ _|by eapply Hv]. }
    rewrite fed_word by done. cbn [mbind option_bind er_step isspace app default]. unfold fed in HL. cbn [ofold] in HL. cbn [er_step] in HL. rewrite space_white, white_nl, Ascii.eqb_refl in HL. cbn [is_empty mbind option_bind] in HL.
    destruct a as [|x a]; [rewrite (Hab eq_refl) in HL |- *; cbn [is_empty negb andb] in HL |- *|].
    + destruct (line_words l1) as [|a' [|b' [|? ?]]]; [done|done| |done]. injection HL as HL. exfalso. assert (List.length (es0 ++ es) = List.length ((es0 ++ es) ++ [(a', b')])) as HL2 by (by rewrite <- HL). rewrite !app_length in HL2. cbn in HL2. lia.
    + destruct b as [|y b]; cbn [is_empty negb andb] in HL |- *.
      * by destruct (line_words l1) as [|a' [|b' [|? ?]]].
      * destruct (line_words l1) as [|a' [|b' [|? ?]]]; [|done| |done].
        { injection HL as HL. exfalso. apply (f_equal (@List.length _)) in HL. rewrite !app_length in HL. cbn in HL. lia. }
        injection HL as HL. apply app_inv_head in HL. injection HL as <- <-. cbn [mbind option_bind]. by rewrite app_assoc.
Qed.

(** ** Numbers in lines *)
Lemma words_white c l : whitespace c = true -> line_words (c :: l) = line_words l.
Proof. intros H. unfold line_words. cbn [words_from]. by rewrite H. Qed.
Lemma words_from_app w : Forall (fun c => whitespace c = false) w -> forall cur l, words_from cur (w ++ l) = words_from (cur ++ w) l.
Proof.
  induction 1 as [|c w Hc Hw IH]; intros cur l; [by rewrite app_nil_r|]. cbn [app words_from]. rewrite Hc, IH.
  by rewrite <- app_assoc.
Qed.
Definition brk (t : text) : Prop := match t with [] => True | c :: _ => whitespace c = true end.
Lemma words_word w t : w <> [] -> Forall (fun c => whitespace c = false) w -> brk t ->
  line_words (w ++ t) = str w :: line_words t.
Proof.
  intros Hw Hf Ht. unfold line_words. rewrite words_from_app by done. cbn [app].
  destruct t as [|c t]; cbn [words_from]; [by destruct w|]. cbn in Ht. rewrite Ht. by destruct w.
Qed.

Lemma cut_head l : exists h ls, cut nl l = h :: ls.
Proof. destruct (cut nl l) as [|h ls] eqn:E; [by apply cut_ne in E|]. by exists h, ls. Qed.
Lemma cut_cons c l h ls : c <> nl -> cut nl l = h :: ls -> cut nl (c :: l) = (c :: h) :: ls.
Proof. intros Hc E. cbn [cut]. rewrite E. destruct (Ascii.eqb_spec c nl); done. Qed.

Lemma numbered_white k c l : whitespace c = true -> c <> nl -> numbered k (cut nl (c :: l)) = numbered k (cut nl l).
Proof.
  intros Hw Hc. destruct (cut_head l) as (h & ls & E). rewrite (cut_cons _ _ _ _ Hc E), E. cbn [numbered].
  by rewrite words_white.
Qed.
Lemma numbered_nl k l : numbered k (cut nl (nl :: l)) = numbered (S k) (cut nl l).
Proof.
  cbn [cut]. assert (Ascii.eqb nl nl = true) as -> by done. cbn [numbered line_words words_from mapM mbind option_bind mret option_ret].
  destruct (numbered (S k) (cut nl l)); done.
Qed.
Lemma numbered_word k w t : w <> [] -> Forall (fun c => whitespace c = false) w -> brk t ->
  numbered k (cut nl (w ++ t)) = (x ← number_of (str w); es ← numbered k (cut nl t); Some ((k, x) :: es)).
Proof.
  intros Hw Hf Ht. destruct (cut_head t) as (h & ls & E).
  assert (cut nl (w ++ t) = (w ++ h) :: ls) as ->.
  { clear -Hf E. induction Hf as [|c w Hc Hf IH]; [done|]. cbn [app]. rewrite (cut_cons c (w ++ t) (w ++ h) ls); [done| |done].
    intros ->. by rewrite white_nl in Hc. }
  assert (brk h) as Hh.
  { destruct t as [|c t]; cbn [cut] in E.
    - injection E as <- <-. done.
    - destruct (Ascii.eqb c nl); [injection E as <- <-; done|]. cbn in Ht.
      destruct (cut nl t); injection E as <- <-; done. }
  rewrite E. cbn [numbered]. rewrite words_word by done. cbn [mapM].
  destruct (number_of (str w)) as [x|]; [|done]. cbn [mbind option_bind].
  destruct (mapM number_of (line_words h)) as [ns|]; [|done]. cbn [mbind option_bind mret option_ret].
  destruct (numbered (S k) ls) as [es|]; [|done]. done.
Qed.
Lemma numbered_nil k : numbered k (cut nl []) = Some [].
Proof. done. Qed.

(** what is left after white space *)
Lemma skip_count_ok f l : forall k, List.length l < f ->
  (exists k', skip_count f (IS l false false) k = Some (None, IS [] true true, k') /\ numbered k (cut nl l) = Some []) \/
  (exists k' c r, skip_count f (IS l false false) k = Some (Some c, IS r false false, k') /\ whitespace c = false /\
     List.length r < List.length l /\ numbered k (cut nl l) = numbered k' (cut nl (c :: r))).
Proof.
  revert l. induction f as [|f IH]; intros l k Hf; [lia|]. cbn [skip_count i_get i_good negb andb i_eof i_fail i_rest].
  destruct l as [|c l].
  - left. exists k. split; [done|apply numbered_nil].
  - rewrite space_white. destruct (whitespace c) eqn:Ew.
    + cbn [List.length] in Hf. destruct (Ascii.eqb_spec c nl) as [->|Hc].
      * rewrite numbered_nl. destruct (IH l (S k) ltac:(lia)) as [(k' & E1 & E2)|(k' & c & r & E1 & E2 & E3 & E4)].
        -- left. by exists k'.
        -- right. exists k', c, r. split_and!; try done. cbn [List.length]. lia.
      * rewrite numbered_white by done. destruct (IH l k ltac:(lia)) as [(k' & E1 & E2)|(k' & c' & r & E1 & E2 & E3 & E4)].
        -- left. by exists k'.
        -- right. exists k', c', r. split_and!; try done. cbn [List.length]. lia.
    + right. exists k, c, l. split_and!; try done. cbn [List.length]. lia.
Qed.

Lemma word_split l : exists w t, l = w ++ t /\ Forall (fun c => whitespace c = false) w /\ brk t.
Proof.
  induction l as [|c l (w & t & -> & Hw & Ht)]; [by exists [], []|].
  destruct (whitespace c) eqn:E; [by exists [], (c :: w ++ t)|]. exists (c :: w), t. split_and!; try done. by constructor.
Qed.

(** the number at the start of the stream *)
Lemma i_number_word lo hi w x t : number_of (str w) = Some x -> brk t -> (lo <= Z.of_nat x <= hi)%Z ->
  i_number true lo hi (IS (w ++ t) false false) = (Z.of_nat x, IS t (is_empty t) false).
Proof.
  intros Hw Ht Hr. apply number_inv in Hw as (Hv & d & w' & -> & Hd).
  unfold i_number. cbn [i_good i_eof i_fail negb andb i_rest app skip_ws]. rewrite (digit_nonspace d Hd).
  assert (Ascii.eqb d "-" = false /\ Ascii.eqb d "+" = false) as [E1 E2].
  { split; apply Ascii.eqb_neq; by intros ->. }
  rewrite E1, E2. cbn [andb].
  assert (match t with [] => True | c :: _ => isdigit (Some c) = false end) as Ht'.
  { destruct t as [|c t]; [done|]. cbn in Ht. destruct (isdigit (Some c)) eqn:E; [|done].
    apply digit_nonspace in E. rewrite space_white in E. congruence. }
  pose proof (digits_ok t Ht' (d :: w') 0%nat x Hv) as D. cbn [app] in D. change (Z.of_nat 0) with 0%Z in D. rewrite D.
  rewrite (proj2 (Nat.eqb_neq _ _)). 2: { cbn [List.length]. rewrite app_length. lia. }
  destruct (Z.ltb_spec (Z.of_nat x) lo); [lia|]. destruct (Z.ltb_spec hi (Z.of_nat x)); [lia|].
  by destruct t.
Qed.

Lemma num_loop_ok {A} (f : A -> nat -> Z -> A) fuel : forall l k acc es, List.length l + 1 < fuel ->
  numbered k (cut nl l) = Some es -> Forall (fun e => (Z.of_nat (snd e) <= 2147483647)%Z) es ->
  num_loop f fuel (IS l false false) k acc = Some (foldl (fun a e => f a (fst e) (Z.of_nat (snd e))) acc es).
Proof.
  induction fuel as [|fuel IH]; intros l k acc es Hf Hn Hb; [lia|]. cbn [num_loop i_fail i_rest].
  destruct (skip_count_ok (S (List.length l)) l k ltac:(lia)) as [(k' & -> & E)|(k' & c & r & -> & Hc & Hr & E)].
  { cbn [mbind option_bind i_fail]. rewrite Hn in E. injection E as ->. done. }
  cbn [mbind option_bind i_fail i_unget i_rest]. rewrite Hn in E.
  destruct (word_split (c :: r)) as (w & t & Ew & Hw & Ht).
  destruct w as [|c' w]; [cbn in Ew; subst t; cbn in Ht; congruence|].
  rewrite Ew in E |- *. rewrite numbered_word in E by done.
  destruct (number_of (str (c' :: w))) as [x|] eqn:Ex; [|done]. cbn [mbind option_bind] in E.
  destruct (numbered k' (cut nl t)) as [es'|] eqn:Et; [|done]. cbn [mbind option_bind] in E. injection E as ->.
  inversion Hb as [|? ? Hx Hb']; subst. cbn [snd] in Hx.
  rewrite (i_number_word _ _ _ x) by (done || lia). cbn [foldl fst snd].
  assert (List.length t < List.length (c :: r)) as Hl by (rewrite Ew; cbn [app List.length]; rewrite app_length; lia).
  cbn [List.length] in Hl.
  destruct t as [|d t].
  - cbn [is_empty]. rewrite numbered_nil in Et. injection Et as <-. cbn [foldl]. destruct fuel; [lia|]. done.
  - cbn [is_empty]. apply IH; [|done|done]. cbn [List.length] in *. lia.
Qed.

Lemma to_string_nat n : to_string (Z.of_nat n) = decimal n.
Proof. unfold to_string, decimal. destruct (Z.ltb_spec (Z.of_nat n) 0); [lia|]. by rewrite Nat2Z.id. Qed.
Lemma decimal_inj n m : decimal n = decimal m -> n = m.
Proof. intros H. pose proof (number_dec n) as Hn. fold (decimal n) in Hn. rewrite H in Hn. unfold decimal in Hn. rewrite number_dec in Hn. congruence. Qed.

Lemma readAdjacencyList_ok txt es : numbered 1 (text_lines txt) = Some es ->
  Forall (fun e => (Z.of_nat (snd e) <= 2147483647)%Z) es ->
  readAdjacencyList txt = Some (map (fun e => (decimal (fst e), decimal (snd e))) es).
Proof.
  intros H Hb. unfold readAdjacencyList. rewrite (num_loop_ok _ _ _ _ _ es) by (done || lia). f_equal.
  assert (forall acc, foldl (fun a e => a ++ [(to_string (Z.of_nat (fst e)), to_string (Z.of_nat (snd e)))]) acc es =
    acc ++ map (fun e => (decimal (fst e), decimal (snd e))) es) as ->; [|done]. clear.
  induction es as [|e es IH]; intros acc; cbn [foldl map]; [by rewrite app_nil_r|].
  rewrite IH, <- app_assoc, !to_string_nat. done.
Qed.

(** ** Groups *)
(** sorted entries *)
Fixpoint asc (m : list (string * string)) : Prop :=
  match m with
  | [] => True
  | e :: m' => Forall (fun e' => slt (fst e) (fst e')) m' /\ asc m'
  end.
Lemma asc_nodup m : asc m -> NoDup (map fst m).
Proof.
  induction m as [|e m IH]; cbn [asc map]; [constructor|]. intros [H1 H2]. constructor; [|by apply IH].
  intros Hin. apply elem_of_list_fmap in Hin as (e' & E & He'). rewrite Forall_forall in H1. specialize (H1 _ He').
  rewrite E in H1. by apply slt_irrefl in H1.
Qed.
Lemma map_put_ok s c m : asc m -> asc (map_put s c m) /\
  (forall s' c', (s', c') ∈ map_put s c m <-> (s' = s /\ c' = c) \/ (s' <> s /\ (s', c') ∈ m)).
Proof.
  induction m as [|[s0 c0] m IH]; cbn [asc map_put fst]; intros Hm.
  - split; [done|]. intros s' c'. rewrite elem_of_list_singleton, elem_of_nil. split; [intros [= -> ->]; by left|intros [[-> ->]|[_ []]]; done].
  - destruct Hm as [H1 H2]. rewrite Forall_forall in H1. destruct (String.compare s s0) eqn:E.
    + apply String.compare_eq_iff in E as ->. cbn [asc fst]. split.
      { split; [|done]. rewrite Forall_forall. apply H1. }
      intros s' c'. rewrite !elem_of_cons. split.
      * intros [[= -> ->]|Hin]; [by left|]. right. split; [|by right]. intros ->. specialize (H1 _ Hin). by apply slt_irrefl in H1.
      * intros [[-> ->]|[Hne [[= -> ->]|Hin]]]; [by left|done|by right].
    + cbn [asc fst]. split.
      { split; [|split; [by rewrite Forall_forall|done]]. constructor; [done|]. rewrite Forall_forall. intros e He.
        eapply slt_trans; [exact E|by apply H1]. }
      intros s' c'. rewrite !elem_of_cons. split.
      * intros [[= -> ->]|[[= -> ->]|Hin]]; [by left| |]; right; split; try by auto.
        -- intros ->. by apply slt_irrefl in E.
        -- intros ->. specialize (H1 _ Hin). cbn [fst] in H1. apply (slt_irrefl s). by eapply slt_trans.
      * intros [[-> ->]|[Hne [[= -> ->]|Hin]]]; auto.
    + apply sgt_slt in E. destruct (IH H2) as [I1 I2]. cbn [asc fst]. split.
      { split; [|done]. rewrite Forall_forall. intros [s' c'] He. cbn [fst]. apply I2 in He as [[-> ->]|[_ He]]; [done|]. by apply (H1 (s', c')). }
      intros s' c'. rewrite !elem_of_cons, I2. split.
      * intros [[= -> ->]|[[-> ->]|[Hne Hin]]]; [|by left|right; by auto]. right. split; [|by left]. intros ->. by apply slt_irrefl in E.
      * intros [[-> ->]|[Hne [[= -> ->]|Hin]]]; auto.
Qed.

Lemma readVertexGroups_ok txt es : numbered 0 (text_lines txt) = Some es ->
  Forall (fun e => (Z.of_nat (snd e) <= 2147483647)%Z) es ->
  exists m, readVertexGroups txt = Some m /\ NoDup (map fst m) /\
    forall s c, (s, c) ∈ m <-> exists v k, s = decimal v /\ c = getColor k /\ last_line es v = Some k.
Proof.
  intros H Hb. unfold readVertexGroups. rewrite (num_loop_ok _ _ _ _ _ es) by (done || lia).
  eexists. split; [done|]. clear H Hb.
  assert (asc (foldl (fun m e => map_put (to_string (Z.of_nat (snd e))) (getColor (fst e)) m) [] es) /\
    forall s c, (s, c) ∈ foldl (fun m e => map_put (to_string (Z.of_nat (snd e))) (getColor (fst e)) m) [] es <->
      exists v k, s = decimal v /\ c = getColor k /\ last_line es v = Some k) as [H1 H2]; [|split; [by apply asc_nodup|done]].
  induction es as [|[k v] es [IH1 IH2]] using rev_ind.
  - cbn [foldl]. split; [done|]. intros s c. rewrite elem_of_nil. split; [done|]. intros (v & k & _ & _ & E). done.
  - rewrite foldl_app. cbn [foldl fst snd]. rewrite to_string_nat.
    destruct (map_put_ok (decimal v) (getColor k) _ IH1) as [P1 P2]. split; [done|].
    assert (forall v', last_line (es ++ [(k, v)]) v' = if (v =? v')%nat then Some k else last_line es v') as HL.
    { intros v'. unfold last_line. rewrite List.filter_app, map_app. cbn [List.filter snd].
      destruct (v =? v'); cbn [map fst]; [by rewrite last_snoc|by rewrite app_nil_r]. }
    intros s c. rewrite P2, IH2. split.
    + intros [[-> ->]|(Hne & v' & k' & -> & -> & E)].
      * exists v, k. rewrite HL, Nat.eqb_refl. done.
      * exists v', k'. rewrite HL. destruct (Nat.eqb_spec v v') as [->|]; done.
    + intros (v' & k' & -> & -> & E). rewrite HL in E. destruct (Nat.eqb_spec v v') as [->|Hne].
      * injection E as ->. by left.
      * right. split; [|by exists v', k']. intros E'. apply Hne. symmetry. by apply decimal_inj.
Qed.

Lemma HEX_inj a b : a < 16 -> b < 16 -> HEX a = HEX b -> a = b.
Proof.
  intros Ha Hb. do 16 (destruct a as [|a]; [do 16 (destruct b as [|b]; [by vm_compute|]); lia|]). lia.
Qed.
Lemma color_period (a b : Z) : (a mod 16 = b mod 16 -> (a / 16) mod 16 = (b / 16) mod 16 -> (a / 256) mod 16 = (b / 256) mod 16 ->
  (a * 3) mod 11 = (b * 3) mod 11 -> a mod 45056 = b mod 45056)%Z.
Proof.
  intros H1 H2 H3 H4.
  assert (exists x, a = b + 4096 * x)%Z as [x ->].
  { exists (a / 4096 - b / 4096)%Z.
    assert (a / 4096 = a / 256 / 16 /\ b / 4096 = b / 256 / 16 /\ a / 256 = a / 16 / 16 /\ b / 256 = b / 16 / 16)%Z as (-> & -> & E1 & E2)
      by (rewrite !Z.div_div by lia; done).
    rewrite E1, E2 in *.
    pose proof (Z.div_mod a 16). pose proof (Z.div_mod (a / 16) 16). pose proof (Z.div_mod (a / 16 / 16) 16).
    pose proof (Z.div_mod b 16). pose proof (Z.div_mod (b / 16) 16). pose proof (Z.div_mod (b / 16 / 16) 16). lia. }
  assert (exists y, x = 11 * y)%Z as [y ->].
  { pose proof (Z.div_mod ((b + 4096 * x) * 3) 11). pose proof (Z.div_mod (b * 3) 11).
    set (q := ((b + 4096 * x) * 3 / 11)%Z) in *. set (q' := (b * 3 / 11)%Z) in *.
    assert (11 * (q - q') = 12288 * x)%Z as E by lia. exists (q - q' - 1117 * x)%Z.
    assert (x * 1 = 11 * (q - q') - 12287 * x)%Z as E' by lia. clear -E. lia. }
  replace (b + 4096 * (11 * y))%Z with (b + y * 45056)%Z by lia. by rewrite Z.mod_add.
Qed.
Lemma getColor_eq n m : getColor n = getColor m <-> (Z.of_nat n mod 45056 = Z.of_nat m mod 45056)%Z.
Proof.
  split.
  - intros H. unfold getColor, str in H. apply (f_equal list_ascii_of_string) in H.
    rewrite !list_ascii_of_string_of_list_ascii in H.
    set (d1 := 15 - (n * 3) mod 11) in H. set (e1 := 15 - (m * 3) mod 11) in H.
    set (d2 := (n / 256) mod 16) in H. set (e2 := (m / 256) mod 16) in H.
    set (d4 := (n / 16) mod 16) in H. set (e4 := (m / 16) mod 16) in H.
    set (d6 := n mod 16) in H. set (e6 := m mod 16) in H.
    pose proof (f_equal (fun l => l !! 1) H) as H1. pose proof (f_equal (fun l => l !! 2) H) as H2.
    pose proof (f_equal (fun l => l !! 4) H) as H4. pose proof (f_equal (fun l => l !! 6) H) as H6.
    cbn [lookup list_lookup] in H1, H2, H4, H6. apply (inj Some) in H1, H2, H4, H6. clear H.
    unfold d1, e1, d2, e2, d4, e4, d6, e6 in *. clear d1 e1 d2 e2 d4 e4 d6 e6.
    apply HEX_inj in H1, H2, H4, H6; try (apply Nat.mod_upper_bound; lia); try lia.
    assert ((n * 3) mod 11 = (m * 3) mod 11) as E.
    { pose proof (Nat.mod_upper_bound (n * 3) 11). pose proof (Nat.mod_upper_bound (m * 3) 11). lia. }
    apply (f_equal Z.of_nat) in H2, H4, H6, E.
    rewrite !Nat2Z.inj_mod in H2, H4, H6, E. rewrite !Nat2Z.inj_div in H2, H4. rewrite !Nat2Z.inj_mul in E.
    exact (color_period _ _ H6 H4 H2 E).
  - intros H.
    assert (exists y, Z.of_nat n = Z.of_nat m + 45056 * y)%Z as [y E].
    { exists (Z.of_nat n / 45056 - Z.of_nat m / 45056)%Z.
      pose proof (Z.div_mod (Z.of_nat n) 45056). pose proof (Z.div_mod (Z.of_nat m) 45056). lia. }
    assert (n mod 16 = m mod 16 /\ (n / 16) mod 16 = (m / 16) mod 16 /\ (n / 256) mod 16 = (m / 256) mod 16 /\
      (n * 3) mod 11 = (m * 3) mod 11 /\ (n * 5 + 5) mod 11 = (m * 5 + 5) mod 11 /\
      (n * 2 + 7) mod 11 = (m * 2 + 7) mod 11) as (E1 & E2 & E3 & E4 & E5 & E6).
    { clear H. split_and!; apply Nat2Z.inj; rewrite !Nat2Z.inj_mod;
        rewrite ?Nat2Z.inj_div, ?Nat2Z.inj_add, ?Nat2Z.inj_mul, E;
        change (Z.of_nat 16) with 16%Z; change (Z.of_nat 256) with 256%Z; change (Z.of_nat 11) with 11%Z;
        change (Z.of_nat 3) with 3%Z; change (Z.of_nat 5) with 5%Z; change (Z.of_nat 2) with 2%Z; change (Z.of_nat 7) with 7%Z.
      - replace (Z.of_nat m + 45056 * y)%Z with (Z.of_nat m + (2816 * y) * 16)%Z by lia. by apply Z.mod_add.
      - replace (Z.of_nat m + 45056 * y)%Z with (Z.of_nat m + (2816 * y) * 16)%Z by lia. rewrite Z.div_add by lia.
        replace (2816 * y)%Z with ((176 * y) * 16)%Z by lia. by apply Z.mod_add.
      - replace (Z.of_nat m + 45056 * y)%Z with (Z.of_nat m + (176 * y) * 256)%Z by lia. rewrite Z.div_add by lia.
        replace (176 * y)%Z with ((11 * y) * 16)%Z by lia. by apply Z.mod_add.
      - replace ((Z.of_nat m + 45056 * y) * 3)%Z with (Z.of_nat m * 3 + (12288 * y) * 11)%Z by lia. by apply Z.mod_add.
      - replace ((Z.of_nat m + 45056 * y) * 5 + 5)%Z with (Z.of_nat m * 5 + 5 + (20480 * y) * 11)%Z by lia. by apply Z.mod_add.
      - replace ((Z.of_nat m + 45056 * y) * 2 + 7)%Z with (Z.of_nat m * 2 + 7 + (8192 * y) * 11)%Z by lia. by apply Z.mod_add. }
    unfold getColor. by rewrite E1, E2, E3, E4, E5, E6.
Qed.
