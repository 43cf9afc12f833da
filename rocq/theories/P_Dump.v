From Coq Require Import Ascii String.
From Verif Require Import Base Sem M_Table M_Index P_Index M_Text M_Dump S_Text S_Sapporo S_Dd P_Text.
Local Open Scope nat_scope.

(** ** how a line is written *)
Definition show_ref (r : sref) : text :=
  match r with SF => lit "F" | ST => lit "T" | SNode k => dec k end.
Definition show_line (l : sline) : text :=
  dec (l_id l) ++ blank :: dec (l_level l) ++ blank :: show_ref (l_b0 l) ++ blank :: show_ref (l_b1 l).

Lemma blank_ref r : blank ∉ show_ref r.
Proof.
  destruct r; cbn [show_ref]; [| |apply blank_dec]; intros H; vm_compute in H;
  apply elem_of_list_singleton in H; done.
Qed.
Lemma nl_ref r : nl ∉ show_ref r.
Proof.
  destruct r; cbn [show_ref]; [| |apply nl_dec]; intros H; vm_compute in H;
  apply elem_of_list_singleton in H; done.
Qed.
Lemma read_show_ref r : read_ref (string_of_list_ascii (show_ref r)) = Some r.
Proof.
  destruct r as [| |k]; [done|done|]. cbn [show_ref]. unfold read_ref. rewrite number_dec. cbn [mbind option_bind].
  destruct (dec k) as [|c l] eqn:E; [by apply dec_ne in E|].
  pose proof (dec_digits k) as D. rewrite E in D. inversion D as [|? ? Hc _]; subst.
  assert (forall s, ~ digit s -> Ascii.eqb c s = false) as G.
  { intros s Hs. destruct (Ascii.eqb_spec c s) as [->|]; done. }
  cbn [string_of_list_ascii String.eqb]. rewrite !G; [done| |]; unfold digit; vm_compute; lia.
Qed.
Lemma nl_line l : nl ∉ show_line l.
Proof.
  unfold show_line. assert (nl <> blank) as Hb by done.
  rewrite !not_elem_of_app, !not_elem_of_cons, !not_elem_of_app, !not_elem_of_cons, !not_elem_of_app, !not_elem_of_cons.
  split_and!; auto using nl_dec, nl_ref.
Qed.
Lemma read_show_line l : read_node (show_line l) = Some l.
Proof.
  unfold read_node, show_line.
  rewrite (words_cons (dec (l_id l))) by apply blank_dec.
  rewrite (words_cons (dec (l_level l))) by apply blank_dec.
  rewrite (words_cons (show_ref (l_b0 l))) by apply blank_ref.
  rewrite words_1 by apply blank_ref. rewrite !number_dec. cbn [mbind option_bind]. rewrite !read_show_ref.
  cbn [mbind option_bind]. by destruct l.
Qed.

(** ** the lines of a table *)
Section lines.
  Context (t : table).
  Definition off (i : nat) : nat := sum_list_with length (take (i - 1) (drop 1 t)).
  Definition idn (r c : nat) : nat := 2 * (off r + c + 1).
  Definition ref_of (f : nid) : sref :=
    if neqb f n0 then SF else if neqb f n1 then ST else SNode (idn (row f) (col f)).
  Definition line_of (i j : nat) (p : node) : sline :=
    SLine (idn i j) i (ref_of (default n0 (p !! 0))) (ref_of (default n0 (p !! 1))).
  Definition row_lines (i : nat) : list sline := imap (line_of i) (default [] (t !! i)).
  Definition all_lines (i : nat) : list sline := concat (map row_lines (seq 1 (i - 1))).

  Lemma off_S i r : 0 < i -> t !! i = Some r -> off (S i) = off i + length r.
  Proof.
    intros Hi Hr. unfold off. replace (S i - 1) with (S (i - 1)) by lia.
    rewrite (take_S_r _ _ r); [|rewrite lookup_drop; by replace (1 + (i - 1)) with i by lia].
    rewrite sum_list_with_app. cbn [sum_list_with]. lia.
  Qed.
  Lemma off_1 : off 1 = 0. Proof. done. Qed.
  Lemma off_end : off (length t) = table_size t.
  Proof. unfold off, table_size. rewrite take_ge; [done|]. rewrite drop_length. done. Qed.
  Lemma off_mono i i' : 0 < i -> i <= i' <= length t -> off i <= off i'.
  Proof.
    intros H0. induction i' as [|i' IH]; intros H; [lia|].
    destruct (decide (i = S i')) as [->|]; [lia|].
    destruct (lookup_lt_is_Some_2 t i' ltac:(lia)) as [r Hr]. rewrite (off_S i' r) by (done || lia).
    pose proof (IH ltac:(lia)). lia.
  Qed.
  Lemma all_S i : 0 < i -> all_lines (S i) = all_lines i ++ row_lines i.
  Proof.
    intros Hi. unfold all_lines. replace (S i - 1) with (i - 1 + 1) by lia. rewrite seq_app, map_app, concat_app.
    cbn [seq map concat]. rewrite app_nil_r. by replace (1 + (i - 1)) with i by lia.
  Qed.
  Lemma row_lines_length i r : t !! i = Some r -> length (row_lines i) = length r.
  Proof. intros E. unfold row_lines. rewrite E. cbn [from_option]; unfold id. apply imap_length. Qed.
  Lemma all_length i : 0 < i <= length t -> length (all_lines i) = off i.
  Proof.
    induction i as [|i IH]; intros H; [lia|]. destruct (decide (i = 0)) as [->|]; [done|].
    destruct (lookup_lt_is_Some_2 t i ltac:(lia)) as [r Hr].
    rewrite all_S, app_length, IH, (row_lines_length i r), (off_S i r) by (done || lia). done.
  Qed.
  Lemma row_lookup i r c p : t !! i = Some r -> r !! c = Some p -> row_lines i !! c = Some (line_of i c p).
  Proof. intros E Hp. unfold row_lines. rewrite E. rewrite list_lookup_imap. cbn [from_option]; unfold id; rewrite Hp. done. Qed.
  Lemma row_lookup_inv i r c l : t !! i = Some r -> row_lines i !! c = Some l ->
    exists p, r !! c = Some p /\ l = line_of i c p.
  Proof.
    intros E H. unfold row_lines in H. rewrite E in H. cbn [from_option] in H; unfold id in H. rewrite list_lookup_imap in H.
    destruct (r !! c) as [p|]; [|done]. exists p. split; [done|]. by inversion H.
  Qed.
  Lemma all_lookup i i' r c p : 0 < i < i' -> i' <= length t -> t !! i = Some r -> r !! c = Some p ->
    all_lines i' !! (off i + c) = Some (line_of i c p).
  Proof.
    intros H. induction i' as [|i' IH]; intros Hl Hr Hp; [lia|]. rewrite all_S by lia.
    destruct (decide (i = i')) as [->|].
    - rewrite lookup_app_r by (rewrite all_length by lia; lia). rewrite all_length by lia.
      replace (off i' + c - off i') with c by lia. by apply (row_lookup i' r).
    - apply lookup_app_l_Some. apply IH; [lia|lia|done|done].
  Qed.
  Lemma all_lookup_inv i' j l : 0 < i' <= length t -> all_lines i' !! j = Some l ->
    exists i r c p, 0 < i < i' /\ t !! i = Some r /\ r !! c = Some p /\ j = off i + c /\ l = line_of i c p.
  Proof.
    induction i' as [|i' IH]; intros H Hj; [lia|]. destruct (decide (i' = 0)) as [->|]; [done|].
    rewrite all_S in Hj by lia. destruct (lookup_lt_is_Some_2 t i' ltac:(lia)) as [r Hr].
    apply lookup_app_Some in Hj as [Hj|[Hge Hj]].
    - destruct (IH ltac:(lia) Hj) as (i & r' & c & p & ? & ?). exists i, r', c, p. split; [lia|done].
    - rewrite all_length in * by lia. destruct (row_lookup_inv i' r _ l Hr Hj) as (p & Hp & ->).
      exists i', r, (j - off i'), p. split_and!; [lia..|done|done|lia|done].
  Qed.

  (** ** the loop *)
  Definition clr (i r : nat) : Prop :=
    (exists i', r < i' < i /\ refs t i' r) /\ forall i', i <= i' < length t -> ~ refs t i' r.
  Definition full (r : nat) (y : list node) : list nat := map (idn r) (seq 0 (length y)).
  Record dinv (i : nat) (ids : id_table) : Prop := {
    di_len : length ids = length t;
    di_0 : ids !! 0 = Some [];
    di_row : forall r y, 0 < r < i -> t !! r = Some y ->
      (ids !! r = Some (full r y) /\ ~ clr i r) \/ (ids !! r = Some [] /\ clr i r)
  }.

  Context (Hwf : table_wf 2 t) (hi lo : list (list nat)) (Hix : index_ok t hi lo).

  Lemma child_valid i r c p b g : 0 < i -> t !! i = Some r -> r !! c = Some p -> p !! b = Some g ->
    neqb g n0 = false -> neqb g n1 = false -> 0 < row g < i /\ exists y, t !! row g = Some y /\ col g < length y.
  Proof.
    intros Hi Hr Hp Hg N0 N1. destruct (wf_child 2 t Hwf i r c p b g Hi Hr Hp Hg) as [Hlt Hv].
    unfold valid in Hv. destruct (Nat.eqb_spec (row g) 0) as [E|E].
    - exfalso. unfold neqb in N0, N1. rewrite E in N0, N1. cbn [row col mk n0 n1 Nat.eqb andb] in N0, N1.
      destruct (col g) as [|[|k]]; [done|done|lia].
    - split; [lia|]. destruct Hv as [q Hv]. unfold tget in Hv. destruct (t !! row g) as [y|]; [|done].
      exists y. split; [done|]. by apply lookup_lt_Some in Hv.
  Qed.

  Lemma full_lookup r y c : c < length y -> full r y !! c = Some (idn r c).
  Proof. intros H. unfold full. rewrite list_lookup_fmap, lookup_seq_lt by done. done. Qed.

  Lemma dump_branch_ok i ids r c p b g : dinv i ids -> 0 < i -> t !! i = Some r -> r !! c = Some p -> p !! b = Some g ->
    forall ids', (forall k, k < i -> ids' !! k = ids !! k) -> dump_branch ids' g = Some (blank :: show_ref (ref_of g)).
  Proof.
    intros HI Hi Hr Hp Hg ids' Hag. unfold dump_branch, ref_of. destruct (neqb g n0) eqn:N0; [done|].
    destruct (neqb g n1) eqn:N1; [done|].
    destruct (child_valid i r c p b g Hi Hr Hp Hg N0 N1) as (Hlt & y & Hy & Hc).
    rewrite Hag by lia. destruct (di_row i ids HI (row g) y Hlt Hy) as [[E _]|[_ [_ Hno]]].
    - rewrite E. cbn [mbind option_bind]. rewrite full_lookup by done. done.
    - exfalso. apply (Hno i); [apply lookup_lt_Some in Hr; lia|]. exists c, b, g. split; [|done].
      unfold child, tget. cbn [row col mk]. rewrite Hr. cbn [mbind option_bind]. rewrite Hp. done.
  Qed.

  Notation render ls := (concat (map (fun l => show_line l ++ [nl]) ls)).

  Lemma dump_row_ok i ids os y : dinv i ids -> 0 < i -> t !! i = Some y ->
    ofor (length y) (dump_node t i) (2 * off i, <[i := replicate (length y) 0]> ids, os) =
    Some (2 * off (S i), <[i := full i y]> ids, os ++ render (row_lines i)).
  Proof.
    intros HI Hi Hy. pose proof (di_len i ids HI) as Hlen. pose proof (lookup_lt_Some _ _ _ Hy) as Hil.
    destruct (ofor_inv (dump_node t i) (fun j acc => acc = (2 * (off i + j),
       <[i := map (idn i) (seq 0 j) ++ replicate (length y - j) 0]> ids, os ++ render (take j (row_lines i)))) (length y)
       (2 * off i, <[i := replicate (length y) 0]> ids, os)) as (acc & E & ->).
    - rewrite Nat.sub_0_r, Nat.add_0_r. cbn [seq map app take concat]. by rewrite app_nil_r.
    - intros j acc Hj ->. unfold dump_node. destruct (lookup_lt_is_Some_2 y j Hj) as [p Hp].
      assert (tget t (mk i j) = Some p) as -> by (unfold tget; cbn [row col mk]; by rewrite Hy).
      cbn [mbind option_bind]. rewrite list_lookup_insert by lia. cbn [mbind option_bind].
      set (x := map (idn i) (seq 0 j) ++ replicate (length y - j) 0).
      assert (length x = length y) as Hx by (unfold x; rewrite app_length, map_length, seq_length, replicate_length; lia).
      destruct (lookup_lt_is_Some_2 x j ltac:(lia)) as [o ->]. cbn [mbind option_bind].
      rewrite list_insert_insert.
      assert (<[j := 2 * (off i + j) + 2]> x = map (idn i) (seq 0 (S j)) ++ replicate (length y - S j) 0) as ->.
      { unfold x. replace (length y - j) with (S (length y - S j)) by lia. cbn [replicate].
        rewrite insert_app_r_alt by (rewrite map_length, seq_length; lia).
        rewrite map_length, seq_length, Nat.sub_diag. cbn [insert list_insert].
        replace (S j) with (j + 1) by lia. rewrite seq_app, map_app, <- app_assoc. cbn [seq map app]. f_equal. f_equal.
        unfold idn. cbn [plus]. lia. }
      assert (length p = 2) as Hlp by (by eapply (wf_arity 2 t Hwf)).
      destruct (lookup_lt_is_Some_2 p 0 ltac:(lia)) as [f0 H0]. destruct (lookup_lt_is_Some_2 p 1 ltac:(lia)) as [f1 H1].
      rewrite H0. cbn [mbind option_bind].
      rewrite (dump_branch_ok i ids y j p 0 f0 HI Hi Hy Hp H0) by (intros; rewrite list_lookup_insert_ne by lia; done).
      cbn [mbind option_bind]. rewrite H1. cbn [mbind option_bind].
      rewrite (dump_branch_ok i ids y j p 1 f1 HI Hi Hy Hp H1) by (intros; rewrite list_lookup_insert_ne by lia; done).
      cbn [mbind option_bind]. eexists. split; [done|].
      rewrite (take_S_r _ _ (line_of i j p)) by (by apply (row_lookup i y)).
      rewrite map_app, concat_app. cbn [map concat]. rewrite app_nil_r.
      replace (2 * (off i + S j)) with (2 * (off i + j) + 2) by lia. f_equal.
      unfold show_line, line_of. cbn [l_id l_level l_b0 l_b1]. rewrite H0, H1. cbn [from_option]; unfold id.
      replace (idn i j) with (2 * (off i + j) + 2) by (unfold idn; lia). repeat (rewrite <- app_assoc; cbn [app]). done.
    - rewrite E. rewrite Nat.sub_diag. cbn [replicate]. rewrite app_nil_r, take_ge by (rewrite (row_lines_length i y); done).
      rewrite (off_S i y) by done. done.
  Qed.

  Lemma dump_level_ok i ids os : dinv i ids -> 0 < i < length t ->
    exists ids', dump_level t lo (2 * off i, ids, os) i = Some (2 * off (S i), ids', os ++ render (row_lines i)) /\ dinv (S i) ids'.
  Proof.
    intros HI Hi. pose proof (di_len i ids HI) as Hlen.
    destruct (lookup_lt_is_Some_2 t i ltac:(lia)) as [y Hy]. unfold dump_level. rewrite Hy. cbn [mbind option_bind].
    destruct (lookup_lt_is_Some_2 ids i ltac:(lia)) as [z Hz]. rewrite Hz. cbn [mbind option_bind].
    rewrite dump_row_ok by (done || lia). cbn [mbind option_bind].
    destruct (ix_lo t hi lo Hix i ltac:(lia)) as (L & HL & _ & Hmem). rewrite HL. cbn [mbind option_bind].
    destruct (ofold_inv (fun ids l => _ ← ids !! l; Some (<[l := []]> ids))
      (fun pre (w : id_table) => length w = length t /\ forall r, w !! r = if decide (r ∈ pre) then Some [] else <[i := full i y]> ids !! r)
      L (<[i := full i y]> ids)) as (ids' & E & Hl' & Hids').
    - rewrite insert_length. split; [done|]. intros r. destruct (decide (r ∈ [])) as [Hr|]; [by apply elem_of_nil in Hr|done].
    - intros pre l post w Heq [Hw1 Hw2]. assert (l ∈ L) as Hl by (rewrite Heq; apply elem_of_app; right; by left).
      apply Hmem in Hl as (Hl & _). destruct (lookup_lt_is_Some_2 w l ltac:(lia)) as [v ->]. cbn [mbind option_bind].
      eexists. split; [done|]. rewrite insert_length. split; [done|]. intros r. destruct (decide (l = r)) as [<-|Hne].
      + rewrite list_lookup_insert by lia. rewrite decide_True; [done|]. apply elem_of_app. right. by left.
      + rewrite list_lookup_insert_ne by done. rewrite Hw2. destruct (decide (r ∈ pre)) as [Hin|Hin].
        * rewrite decide_True; [done|]. by apply elem_of_app; left.
        * rewrite decide_False; [done|]. rewrite elem_of_app, elem_of_list_singleton. intros [?| ->]; done.
    - rewrite E. cbn [mbind option_bind]. exists ids'. split; [done|]. constructor; [done| |].
      + rewrite Hids', decide_False; [|intros H; apply Hmem in H; lia]. rewrite list_lookup_insert_ne by lia. apply HI.
      + intros r yr Hr Hyr. rewrite Hids'. destruct (decide (r ∈ L)) as [Hin|Hin].
        * right. split; [done|]. apply Hmem in Hin as (Hri & Href & Hno). split; [exists i; split; [lia|done]|].
          intros i' Hi'. apply Hno. lia.
        * destruct (decide (r = i)) as [->|Hne].
          -- left. rewrite list_lookup_insert by lia. assert (yr = y) as -> by congruence. split; [done|].
             intros [(i' & ? & _) _]. lia.
          -- rewrite list_lookup_insert_ne by done.
             destruct (di_row i ids HI r yr ltac:(lia) Hyr) as [[E1 E2]|[E1 [(i' & Hi' & Href) E2]]].
             ++ left. split; [done|]. intros [(i' & Hi' & Href) Hno].
                assert (~ refs t i r) as Hni. { intros Href'. apply Hin, Hmem. split; [lia|]. split; [done|]. intros i'' ?. apply Hno. lia. }
                apply E2. split.
                ** exists i'. split; [|done]. destruct (decide (i' = i)) as [->|]; [done|lia].
                ** intros i'' Hi''. destruct (decide (i'' = i)) as [->|]; [done|]. apply Hno. lia.
             ++ right. split; [done|]. split; [exists i'; split; [lia|done]|]. intros i'' Hi''. apply E2. lia.
  Qed.

  Lemma dump_levels_ok os : 0 < length t ->
    exists ids, ofold (dump_level t lo) (seq 1 (length t - 1)) (0, replicate (length t) [], os) =
      Some (2 * table_size t, ids, os ++ render (all_lines (length t))) /\ dinv (length t) ids.
  Proof.
    intros Hlen.
    destruct (ofold_inv (dump_level t lo) (fun pre acc => exists ids, let i := S (length pre) in i <= length t /\
       acc = (2 * off i, ids, os ++ render (all_lines i)) /\ dinv i ids)
       (seq 1 (length t - 1)) (0, replicate (length t) [], os)) as (acc & E & ids & _ & -> & HI).
    - exists (replicate (length t) []). cbn [length]. split_and!; [lia|by rewrite app_nil_r|].
      constructor; [by rewrite replicate_length|by apply lookup_replicate_2|lia].
    - intros pre i post acc Heq (ids & Hle & -> & HI).
      assert (length pre < length t - 1) as Hlt.
      { apply (f_equal length) in Heq. rewrite seq_length, app_length in Heq. cbn [length] in Heq. lia. }
      assert (i = S (length pre)) as ->.
      { assert (seq 1 (length t - 1) !! length pre = Some i) as Hx by (rewrite Heq, lookup_app_r, Nat.sub_diag by lia; done).
        apply lookup_seq in Hx. lia. }
      destruct (dump_level_ok (S (length pre)) ids (os ++ render (all_lines (S (length pre)))) HI ltac:(lia)) as (ids' & -> & HI').
      eexists. split; [done|]. exists ids'. cbn zeta. rewrite app_length, Nat.add_1_r. split_and!; [lia| |done].
      rewrite (all_S (S (length pre))) by lia. rewrite map_app, concat_app, app_assoc. done.
    - rewrite seq_length in *. replace (S (length t - 1)) with (length t) in * by lia.
      exists ids. rewrite <- off_end. done.
  Qed.
End lines.

Definition head_lines (d : dd) : list text :=
  [lit "_i " ++ dec (length (tab d) - 1); lit "_o 1"; lit "_n " ++ dec (table_size (tab d))].
Definition file_of (d : dd) : sfile :=
  SFile (length (tab d) - 1) (all_lines (tab d) (length (tab d))) [ref_of (tab d) (rt d)].

Lemma all_id t i j l : 0 < i <= length t -> all_lines t i !! j = Some l -> l_id l = 2 * (j + 1).
Proof. intros Hi Hl. destruct (all_lookup_inv t i j l Hi Hl) as (i' & r & c & p & _ & _ & _ & -> & ->). done. Qed.

Lemma find_id (L : list sline) j : (forall j l, L !! j = Some l -> l_id l = 2 * (j + 1)) ->
  List.find (fun l => l_id l =? 2 * (j + 1)) L = L !! j.
Proof.
  intros H. assert (forall L k, (forall j l, L !! j = Some l -> l_id l = 2 * (k + j + 1)) -> k <= j ->
    List.find (fun l => l_id l =? 2 * (j + 1)) L = L !! (j - k)) as G; [|rewrite (G L 0); [by rewrite Nat.sub_0_r|done|lia]].
  clear. induction L as [|x L IH]; intros k H Hk; [done|]. cbn [List.find].
  rewrite (H 0 x eq_refl). destruct (Nat.eqb_spec (2 * (k + 0 + 1)) (2 * (j + 1))).
  - replace (j - k) with 0 by lia. done.
  - rewrite (IH (S k)); [replace (j - k) with (S (j - S k)) by lia; done| |lia].
    intros j' l Hl. rewrite (H (S j') l Hl). lia.
Qed.

Section file.
  Context (d : dd) (Hd : dd_wf d) (Har : d_ar d = 2).
  Notation t := (tab d).
  Notation N := (length (tab d)).

  Lemma wf2 : table_wf 2 t.
  Proof. destruct Hd as (_ & H & _). by rewrite Har in H. Qed.
  Lemma len_pos : 0 < N.
  Proof. destruct (wf_term _ _ wf2) as (r & Hr & _). by apply lookup_lt_Some in Hr. Qed.

  Lemma valid_ref f : valid t f -> neqb f n0 = false -> neqb f n1 = false ->
    0 < row f /\ exists y p, t !! row f = Some y /\ y !! col f = Some p.
  Proof.
    intros Hv N0 N1. unfold valid in Hv. destruct (Nat.eqb_spec (row f) 0) as [E|E].
    - exfalso. unfold neqb in N0, N1. rewrite E in N0, N1. cbn [row col mk n0 n1 Nat.eqb andb] in N0, N1.
      destruct (col f) as [|[|k]]; [done|done|lia].
    - split; [lia|]. destruct Hv as [q Hv]. unfold tget in Hv. destruct (t !! row f) as [y|]; [|done]. by exists y, q.
  Qed.

  Lemma find_ref i r c p : 0 < i -> t !! i = Some r -> r !! c = Some p ->
    find_line (file_of d) (idn t i c) = Some (line_of t i c p).
  Proof.
    intros Hi Hr Hp. unfold find_line, file_of. cbn [f_nodes]. unfold idn. rewrite find_id.
    - apply (all_lookup t i N r c p); [apply lookup_lt_Some in Hr; lia|lia|done|done].
    - intros j l Hl. apply (all_id t N); [pose proof len_pos; lia|done].
  Qed.

  Lemma ref_ok_of i j f : 0 < i <= N -> valid t f -> row f < i -> off t i <= j ->
    ref_ok (take j (all_lines t N)) i (ref_of t f).
  Proof.
    intros Hi Hv Hlt Hj. unfold ref_of. destruct (neqb f n0) eqn:N0; [done|]. destruct (neqb f n1) eqn:N1; [done|].
    destruct (valid_ref f Hv N0 N1) as (H0 & y & p & Hy & Hp). cbn [ref_ok].
    exists (line_of t (row f) (col f) p). split_and!; [|done|cbn [line_of l_level]; done].
    apply (elem_of_list_lookup_2 _ (off t (row f) + col f)).
    pose proof (off_S t (row f) y H0 Hy) as ES. pose proof (lookup_lt_Some _ _ _ Hp) as Hc.
    pose proof (off_mono t (S (row f)) i ltac:(lia) ltac:(lia)) as Hm.
    rewrite lookup_take by lia. apply (all_lookup t (row f) N y); [lia|lia|done|done].
  Qed.

  Lemma file_of_ok : file_ok (file_of d).
  Proof.
    pose proof len_pos as HN. assert (0 < N <= N) as HNN by lia.
    constructor; unfold file_of; cbn [f_nodes f_levels f_outputs].
    - intros j l Hl. rewrite (all_id t N j l HNN Hl). split; [lia|]. rewrite Nat.mul_comm. apply Nat.mod_mul. lia.
    - intros j j' l l' Hl Hl' E. rewrite (all_id t N j l HNN Hl), (all_id t N j' l' HNN Hl') in E. lia.
    - intros j l Hl. destruct (all_lookup_inv t N j l HNN Hl) as (i & r & c & p & Hi & _ & _ & _ & ->).
      cbn [line_of l_level]. lia.
    - intros j l Hl. destruct (all_lookup_inv t N j l HNN Hl) as (i & r & c & p & Hi & Hr & Hp & -> & ->).
      cbn [line_of l_level l_b0 l_b1]. pose proof (wf_arity _ _ wf2 i r c p Hr Hp) as Hlp.
      destruct (lookup_lt_is_Some_2 p 0 ltac:(lia)) as [f0 H0]. destruct (lookup_lt_is_Some_2 p 1 ltac:(lia)) as [f1 H1].
      rewrite H0, H1. cbn [from_option]; unfold id.
      destruct (wf_child _ _ wf2 i r c p 0 f0 ltac:(lia) Hr Hp H0). destruct (wf_child _ _ wf2 i r c p 1 f1 ltac:(lia) Hr Hp H1).
      split; apply ref_ok_of; (done || lia).
    - intros r Hr. apply elem_of_list_singleton in Hr as ->. unfold ref_of.
      destruct (neqb (rt d) n0) eqn:N0; [done|]. destruct (neqb (rt d) n1) eqn:N1; [done|].
      destruct Hd as (_ & _ & Hv). destruct (valid_ref (rt d) Hv N0 N1) as (H0 & y & p & Hy & Hp).
      exists (line_of t (row (rt d)) (col (rt d)) p). pose proof (lookup_lt_Some _ _ _ Hy). split_and!; [|done|cbn [line_of l_level]; lia].
      apply (elem_of_list_lookup_2 _ (off t (row (rt d)) + col (rt d))). apply (all_lookup t (row (rt d)) N y); [lia|lia|done|done].
  Qed.

  Lemma ref_code_of f : valid t f -> ref_code (file_of d) (ref_of t f) = id_level f.
  Proof.
    intros Hv. unfold ref_of, id_level. destruct (neqb f n0) eqn:N0.
    { unfold neqb in N0. apply andb_prop in N0 as [E1 E2]. apply Nat.eqb_eq in E1, E2. rewrite E1, E2. done. }
    destruct (neqb f n1) eqn:N1.
    { unfold neqb in N1. apply andb_prop in N1 as [E1 E2]. apply Nat.eqb_eq in E1, E2. rewrite E1, E2. done. }
    destruct (valid_ref f Hv N0 N1) as (H0 & y & p & Hy & Hp). cbn [ref_code].
    rewrite (find_ref (row f) y (col f) p) by done. cbn [line_of l_level].
    destruct (Nat.ltb_spec 0 (row f)); [done|lia].
  Qed.

  Lemma run_of r bs : Forall (fun b => b < 2) bs -> forall f, valid t f ->
    run (file_spec (file_of d) r) (ref_code (file_of d) (ref_of t f)) (ref_of t f) bs = run (dd_spec d) (id_level f) f bs.
  Proof.
    induction 1 as [|b bs Hb _ IH]; intros f Hv; cbn [run]; rewrite ref_code_of by done; [done|].
    destruct (Z.ltb_spec 0 (id_level f)) as [Hp|]; [|done]. f_equal.
    assert (0 < row f) as H0. { unfold id_level in Hp. destruct (Nat.ltb_spec 0 (row f)); lia. }
    assert (neqb f n0 = false /\ neqb f n1 = false) as [N0 N1].
    { unfold neqb, n0, n1. cbn [row mk]. destruct (Nat.eqb_spec (row f) 0); [lia|]. done. }
    destruct (valid_ref f Hv N0 N1) as (_ & y & p & Hy & Hq).
    pose proof (wf_arity _ _ wf2 (row f) y (col f) p Hy Hq) as Hlp.
    destruct (lookup_lt_is_Some_2 p b ltac:(lia)) as [g Hg].
    destruct (wf_child _ _ wf2 (row f) y (col f) p b g H0 Hy Hq Hg) as [_ Hvg].
    assert (get_child (file_spec (file_of d) r) (ref_of t f) (id_level f) b = (ref_code (file_of d) (ref_of t g), ref_of t g)) as ->.
    { unfold file_spec. cbn [get_child]. unfold ref_of at 1. rewrite N0, N1. rewrite (find_ref (row f) y (col f) p) by done.
      cbn [line_of l_b0 l_b1]. destruct b as [|[|]]; [| |lia]; rewrite Hg; done. }
    assert (get_child (dd_spec d) f (id_level f) b = (id_level g, g)) as ->.
    { unfold dd_spec. cbn [get_child]. unfold child, tget. rewrite Hy. cbn [mbind option_bind]. rewrite Hq. cbn [mbind option_bind]. by rewrite Hg. }
    cbn [fst snd]. by apply IH.
  Qed.

  Lemma file_walk_of bs : Forall (fun b => b < 2) bs -> file_walk (file_of d) (ref_of t (rt d)) bs = walk d bs.
  Proof.
    intros Hb. unfold file_walk, walk. destruct Hd as (_ & _ & Hv). rewrite run_of by done.
    f_equal; [|done..]. cbn [dd_spec get_root fst]. unfold neqb, n1, id_level, valid in *. cbn [row col mk].
    destruct (Nat.eqb_spec (row (rt d)) 0) as [E|E]; cbn [andb].
    - rewrite E. cbn [Nat.ltb Nat.leb]. destruct (col (rt d)) as [|[|]]; [done|done|lia].
    - destruct (Nat.ltb_spec 0 (row (rt d))); [done|lia].
  Qed.

  (** ** the whole text *)
  Lemma head_ok s k : blank ∉ lit s -> nl ∉ lit s ->
    nl ∉ (lit s ++ blank :: dec k) /\ words_of (lit s ++ blank :: dec k) = [s; string_of_list_ascii (dec k)].
  Proof.
    intros Hb Hn. split.
    - rewrite not_elem_of_app, not_elem_of_cons. split_and!; [done|done|apply nl_dec].
    - rewrite words_cons by done. rewrite words_1 by apply blank_dec. unfold lit. by rewrite string_of_list_ascii_of_string.
  Qed.

  Definition whole (k : nat) : text :=
    concat (map (fun l => l ++ [nl]) (head_lines d ++ map show_line (all_lines t N) ++ [dec k])).

  Lemma dump_whole : exists ids, dinv t N ids /\
    dump_sapporo d = (r ← ids !! row (rt d); k1 ← r !! col (rt d); Some (whole k1)).
  Proof.
    destruct (make_index_ok _ _ wf2) as (hi & lo & E & Hix).
    destruct (dump_levels_ok t wf2 hi lo Hix ((lit "_i " ++ dec (N - 1) ++ [nl]) ++ (lit "_o 1" ++ [nl]) ++ (lit "_n " ++ dec (table_size t) ++ [nl])) len_pos)
      as (ids & E2 & HI).
    exists ids. split; [done|]. unfold dump_sapporo. rewrite E. cbn [mbind option_bind]. rewrite E2. cbn [mbind option_bind].
    destruct (ids !! row (rt d)) as [r|]; [|done]. cbn [mbind option_bind]. destruct (r !! col (rt d)) as [k1|]; [|done].
    cbn [mbind option_bind]. f_equal. unfold whole, head_lines. rewrite !map_app, !concat_app, map_map.
    cbn [map concat]. rewrite !app_nil_r. repeat (rewrite <- app_assoc; cbn [app]). done.
  Qed.

  Lemma read_whole : 0 < row (rt d) -> read_file (whole (idn t (row (rt d)) (col (rt d)))) = Some (file_of d).
  Proof.
    intros Hr. unfold read_file, whole. rewrite lines_of_ok.
    2: { unfold head_lines. rewrite !Forall_app, !Forall_cons, Forall_map. split_and!; try constructor; try apply nl_dec.
         - change (lit "_i ") with (lit "_i" ++ [blank]). rewrite <- app_assoc. apply head_ok; apply not_in_b; vm_compute; done.
         - apply not_in_b; vm_compute; done.
         - change (lit "_n ") with (lit "_n" ++ [blank]). rewrite <- app_assoc. apply head_ok; apply not_in_b; vm_compute; done.
         - apply Forall_true. intros l. apply nl_line. }
    cbn [mbind option_bind]. unfold head_lines. cbn [app].
    assert (forall s k, blank ∉ lit s -> read_head s (lit s ++ blank :: dec k) = Some k) as RH.
    { intros s k Hb. unfold read_head. rewrite words_cons by done. rewrite words_1 by apply blank_dec.
      unfold lit. rewrite string_of_list_ascii_of_string, String.eqb_refl. apply number_dec. }
    assert (blank ∉ lit "_i" /\ blank ∉ lit "_o" /\ blank ∉ lit "_n") as (B1 & B2 & B3).
    { split_and!; apply not_in_b; vm_compute; done. }
    change (lit "_i ") with (lit "_i" ++ [blank]). change (lit "_n ") with (lit "_n" ++ [blank]).
    rewrite <- !app_assoc. cbn [app]. rewrite !RH by done. cbn [mbind option_bind].
    change (read_head "_o" (lit "_o 1")) with (Some 1). cbn [mbind option_bind].
    rewrite app_length, map_length, (all_length t N) by (pose proof len_pos; lia). rewrite off_end. cbn [length]. rewrite Nat.eqb_refl.
    assert (table_size t = length (map show_line (all_lines t N))) as Hs.
    { rewrite map_length, (all_length t N) by (pose proof len_pos; lia). by rewrite off_end. }
    rewrite Hs, take_app, drop_app.
    assert (forall L, mapM read_node (map show_line L) = Some L) as ->.
    { induction L as [|l L IH]; [done|]. cbn [map mapM]. rewrite read_show_line. cbn [mbind option_bind]. by rewrite IH. }
    cbn [mbind option_bind mapM]. unfold read_output. rewrite words_1 by apply blank_dec.
    change (dec (idn t (row (rt d)) (col (rt d)))) with (show_ref (SNode (idn t (row (rt d)) (col (rt d))))).
    rewrite read_show_ref. cbn [mbind option_bind mret option_ret]. unfold file_of. do 3 f_equal.
    unfold ref_of, neqb, n0, n1. cbn [row mk]. destruct (Nat.eqb_spec (row (rt d)) 0); [lia|]. done.
  Qed.

  Lemma dump_ok : 0 < row (rt d) -> (forall i, row (rt d) < i < N -> ~ refs t i (row (rt d))) ->
    dump_sapporo d = Some (whole (idn t (row (rt d)) (col (rt d)))).
  Proof.
    intros Hr Hno. destruct dump_whole as (ids & HI & ->).
    destruct Hd as (_ & _ & Hv). unfold valid in Hv. destruct (Nat.eqb_spec (row (rt d)) 0); [lia|].
    destruct Hv as [p Hv]. unfold tget in Hv. destruct (t !! row (rt d)) as [y|] eqn:Hy; [|done]. cbn [mbind option_bind] in Hv.
    apply lookup_lt_Some in Hv as Hc. pose proof (lookup_lt_Some _ _ _ Hy) as Hl.
    destruct (di_row t N ids HI (row (rt d)) y ltac:(lia) Hy) as [[-> _]|[_ [(i & Hi & Href) _]]].
    - cbn [mbind option_bind]. rewrite full_lookup by done. done.
    - exfalso. by apply (Hno i).
  Qed.

  Lemma dump_terminal : row (rt d) = 0 -> dump_sapporo d = None.
  Proof. intros Hr. destruct dump_whole as (ids & HI & ->). rewrite Hr, (di_0 t N ids HI). done. Qed.

  Lemma dump_cleared i : row (rt d) < i < N -> refs t i (row (rt d)) -> dump_sapporo d = None.
  Proof.
    intros Hi Href. destruct (decide (row (rt d) = 0)) as [|Hr]; [by apply dump_terminal|].
    destruct dump_whole as (ids & HI & ->).
    destruct (lookup_lt_is_Some_2 t (row (rt d)) ltac:(lia)) as [y Hy].
    destruct (di_row t N ids HI (row (rt d)) y ltac:(lia) Hy) as [[_ Hn]|[-> _]]; [|done].
    exfalso. apply Hn. split; [by exists i|lia].
  Qed.
End file.
