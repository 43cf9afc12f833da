(** ddnumlin: transposing, and the answers that are drawn. *)
From Verif Require Import Base Sem M_Table M_Engine M_Builder M_Ops M_Conv M_Subset Props_Reduce S_Eval S_Api M_Numlin M_NumlinProg S_Numlin P_Numlin2 P_Numlin3 P_Numlin4 P_Numlin5 P_Numlin6.
Local Open Scope nat_scope.

(** ** matrices *)
Definition matrix {A} (r c : nat) (f : nat -> nat -> A) : list (list A) := map (fun i => map (f i) (seq 0 c)) (seq 0 r).
Lemma matrix_row {A} r c (f : nat -> nat -> A) i : matrix r c f !! i = if i <? r then Some (map (f i) (seq 0 c)) else None.
Proof.
  unfold matrix. change (map ?g ?l) with (g <$> l). rewrite list_lookup_fmap. destruct (Nat.ltb_spec i r).
  - by rewrite lookup_seq_lt.
  - by rewrite lookup_seq_ge.
Qed.
Lemma row_at {A} c (f : nat -> A) j : map f (seq 0 c) !! j = if j <? c then Some (f j) else None.
Proof.
  change (map ?g ?l) with (g <$> l). rewrite list_lookup_fmap. destruct (Nat.ltb_spec j c).
  - by rewrite lookup_seq_lt.
  - by rewrite lookup_seq_ge.
Qed.
Lemma matrix_at {A} r c (f : nat -> nat -> A) i j : i < r -> j < c -> (matrix r c f !! i ≫= (fun x => x !! j)) = Some (f i j).
Proof. intros Hi Hj. rewrite matrix_row, (proj2 (Nat.ltb_lt _ _) Hi). cbn [mbind option_bind]. by rewrite row_at, (proj2 (Nat.ltb_lt _ _) Hj). Qed.
Lemma matrix_len {A} r c (f : nat -> nat -> A) : length (matrix r c f) = r.
Proof. unfold matrix. by rewrite map_length, seq_length. Qed.
Lemma matrix_ext {A} r c (f g : nat -> nat -> A) : (forall i j, i < r -> j < c -> f i j = g i j) -> matrix r c f = matrix r c g.
Proof. intros H. unfold matrix. apply map_ext_in. intros i Hi%in_seq. apply map_ext_in. intros j Hj%in_seq. apply H; lia. Qed.
Lemma transposed_ok {A} r c (f : nat -> nat -> A) : 0 < r -> transposed_matrix (matrix r c f) = Some (matrix c r (fun i j => f j i)).
Proof.
  intros Hr. unfold transposed_matrix. rewrite matrix_row, (proj2 (Nat.ltb_lt _ _) Hr), matrix_len. cbn [mbind option_bind]. rewrite map_length, seq_length.
  rewrite (mapM_total _ (fun i => map (fun j => f j i) (seq 0 r))); [done|]. intros i Hi. apply elem_of_seq in Hi. apply mapM_total. intros j Hj. apply elem_of_seq in Hj. apply matrix_at; lia.
Qed.
Lemma cell_matrix r c f i j : i < r -> j < c -> cell (matrix r c f) i j = f i j.
Proof. intros Hi Hj. unfold cell. by rewrite matrix_at. Qed.
Lemma shape_matrix {A} r c (f : nat -> nat -> A) : shape r c (matrix r c f).
Proof. split; [apply matrix_len|]. intros i x. rewrite matrix_row. destruct (i <? r); [|done]. intros [= <-]. by rewrite map_length, seq_length. Qed.
Lemma of_shape r c M : shape r c M -> M = matrix r c (cell M).
Proof.
  intros [Hl Hr]. apply list_eq. intros i. rewrite matrix_row. destruct (Nat.ltb_spec i r) as [Hi|Hi].
  - destruct (lookup_lt_is_Some_2 M i) as [x Ex]; [lia|]. rewrite Ex. f_equal. apply list_eq. intros j. rewrite row_at. specialize (Hr _ _ Ex). destruct (Nat.ltb_spec j c) as [Hj|Hj].
    + destruct (lookup_lt_is_Some_2 x j) as [y Ey]; [lia|]. unfold cell. rewrite Ex. cbn. by rewrite Ey.
    + apply lookup_ge_None_2. lia.
  - apply lookup_ge_None_2. lia.
Qed.
Lemma of_shapeZ r c (M : list (list Z)) : shape r c M -> M = matrix r c (fun i j => default 0%Z (M !! i ≫= (fun r => r !! j))).
Proof.
  intros [Hl Hr]. apply list_eq. intros i. rewrite matrix_row. destruct (Nat.ltb_spec i r) as [Hi|Hi].
  - destruct (lookup_lt_is_Some_2 M i) as [x Ex]; [lia|]. rewrite Ex. f_equal. apply list_eq. intros j. rewrite row_at. specialize (Hr _ _ Ex). destruct (Nat.ltb_spec j c) as [Hj|Hj].
    + destruct (lookup_lt_is_Some_2 x j) as [y Ey]; [lia|]. cbn. by rewrite Ey.
    + apply lookup_ge_None_2. lia.
  - apply lookup_ge_None_2. lia.
Qed.
Lemma no_links_matrix r c : no_links r c = matrix r c (fun _ _ => false).
Proof.
  unfold no_links. apply list_eq. intros i. rewrite matrix_row. destruct (Nat.ltb_spec i r) as [Hi|Hi]; [|by apply lookup_ge_None_2; rewrite replicate_length].
  rewrite lookup_replicate_2 by done. f_equal. apply list_eq. intros j. rewrite row_at. destruct (Nat.ltb_spec j c); [by apply lookup_replicate_2|apply lookup_ge_None_2; by rewrite replicate_length].
Qed.

(** ** solutions carried over from one board to another *)
Section carry.
Context (b b' : board) (hl vl hl' vl' : nat -> nat -> bool) (f : nat * nat -> nat * nat).
Context (Hff : forall c, f (f c) = c) (Hon : forall c, on_board b c <-> on_board b' (f c)) (Hnum : forall c, number b c = number b' (f c)).
Context (Hlk : forall c d, linked b hl vl c d <-> linked b' hl' vl' (f c) (f d)).
Lemma c_partners c ds : partners b hl vl c ds -> partners b' hl' vl' (f c) (map f ds).
Proof.
  intros [H1 H2]. split.
  - apply NoDup_fmap_2; [|done]. intros x y E. by rewrite <- (Hff x), E, Hff.
  - intros d. rewrite <- (Hff d), <- Hlk, H2. change (map ?g ?l) with (g <$> l). rewrite elem_of_list_fmap, Hff. split.
    + intros Hd. exists (f d). by rewrite Hff.
    + intros (y & -> & Hy). by rewrite Hff.
Qed.
Lemma c_blank c : blank b hl vl c -> blank b' hl' vl' (f c).
Proof. intros [H1 H2]. split; [by rewrite <- Hnum|]. intros d Hd. apply (H2 (f d)). by rewrite Hlk, Hff. Qed.
Lemma c_rtc c d : rtc (linked b hl vl) c d -> rtc (linked b' hl' vl') (f c) (f d).
Proof. induction 1 as [|c e d Hc _ IH]; [constructor|]. econstructor; [by apply Hlk|done]. Qed.
Lemma c_rtc' c d : rtc (linked b' hl' vl') c d -> rtc (linked b hl vl) (f c) (f d).
Proof. induction 1 as [|c e d Hc _ IH]; [constructor|]. econstructor; [|done]. apply Hlk. by rewrite !Hff. Qed.
Lemma c_solution : solution b hl vl -> solution b' hl' vl'.
Proof.
  intros [S1 S2 S3 S4]. constructor.
  - intros c Hc Hn. rewrite <- (Hff c) in Hc, Hn. rewrite <- Hon in Hc. rewrite <- Hnum in Hn. destruct (S1 _ Hc Hn) as [d Hd]. exists (f d). rewrite <- (Hff c). by apply (c_partners _ [d]).
  - intros c Hc Hn. rewrite <- (Hff c) in Hc, Hn. rewrite <- Hon in Hc. rewrite <- Hnum in Hn. destruct (S2 _ Hc Hn) as [(d & e & Hd)|Hd]; rewrite <- (Hff c); [left|right; by apply c_blank].
    exists (f d), (f e). by apply (c_partners _ [d; e]).
  - intros c d Hl. rewrite <- (Hff c), <- (Hff d), <- Hlk in Hl. destruct (S3 _ _ Hl) as (z & Hz & Hn). exists (f z). rewrite <- Hnum. split; [|done]. rewrite <- (Hff c). by apply c_rtc.
  - intros c d Hr Hc Hd. apply c_rtc' in Hr. rewrite <- (Hff c), <- (Hff d), <- !Hnum in *. rewrite !Hff in Hr. by apply S4.
Qed.
Lemma c_blanks k : blanks_at_most b' hl' vl' k -> blanks_at_most b hl vl k.
Proof.
  intros HB Hk cs Hnd Hcs. rewrite <- (map_length f). apply HB; [done| |].
  - apply NoDup_fmap_2; [|done]. intros x y E. by rewrite <- (Hff x), E, Hff.
  - intros c Hc. apply elem_of_list_fmap in Hc as (y & -> & Hy). destruct (Hcs y Hy) as [H1 H2]. split; [by apply Hon|by apply c_blank].
Qed.
End carry.

Lemma solved_ext b hl vl hl' vl' k : (forall i j, i < b_rows b -> S j < b_cols b -> hl i j = hl' i j) -> (forall i j, S i < b_rows b -> j < b_cols b -> vl i j = vl' i j) ->
  solved b hl vl k -> solved b hl' vl' k.
Proof.
  intros Hh Hv [H1 H2]. assert (HL : forall c d, linked b hl vl c d <-> linked b hl' vl' c d).
  { intros [i j] [i' j']. unfold linked, on_board, right_of, below. cbn [fst snd].
    assert (forall a c, a < b_rows b -> S c < b_cols b -> hl a c = true <-> hl' a c = true) as Hh' by (intros; by rewrite Hh).
    assert (forall a c, S a < b_rows b -> c < b_cols b -> vl a c = true <-> vl' a c = true) as Hv' by (intros; by rewrite Hv).
    split; intros (O1 & O2 & [[E Hx]|[[E Hx]|[[E Hx]|[E Hx]]]]); injection E as -> ->; (split; [done|]); (split; [done|]).
    - left. split; [done|]. apply Hh'; [lia|lia|done].
    - right; left. split; [done|]. apply Hh'; [lia|lia|done].
    - right; right; left. split; [done|]. apply Hv'; [lia|lia|done].
    - right; right; right. split; [done|]. apply Hv'; [lia|lia|done].
    - left. split; [done|]. apply Hh'; [lia|lia|done].
    - right; left. split; [done|]. apply Hh'; [lia|lia|done].
    - right; right; left. split; [done|]. apply Hv'; [lia|lia|done].
    - right; right; right. split; [done|]. apply Hv'; [lia|lia|done]. }
  split; [by apply (c_solution b b hl vl hl' vl' id)|]. apply (c_blanks b b hl' vl' hl vl id); done.
Qed.

(** ** the transposed board *)
Definition flip (c : nat * nat) : nat * nat := (snd c, fst c).
Definition mirror (b b' : board) : Prop := b_rows b' = b_cols b /\ b_cols b' = b_rows b /\ forall i k, i < b_rows b -> k < b_cols b -> b_num b' k i = b_num b i k.
Lemma num_off b i k : board_ok b -> b_rows b <= i \/ b_cols b <= k -> b_num b i k = None.
Proof.
  intros (_ & _ & HL & HR & _) [Hi|Hk]; unfold b_num.
  - by rewrite lookup_ge_None_2 by lia.
  - destruct (b_number b !! i) as [r|] eqn:E; [|done]. cbn [mbind option_bind]. apply lookup_ge_None_2. rewrite (HR _ _ E). lia.
Qed.
Lemma mirror_num b b' i k : board_ok b -> board_ok b' -> mirror b b' -> b_num b' k i = b_num b i k.
Proof.
  intros H1 H2 (M1 & M2 & M3). destruct (decide (i < b_rows b /\ k < b_cols b)) as [[? ?]|Hn]; [by apply M3|].
  rewrite (num_off b), (num_off b') by (done || lia). done.
Qed.
Lemma mirror_solved b b' hl vl k : board_ok b -> board_ok b' -> mirror b b' -> solved b hl vl k <-> solved b' (fun i j => vl j i) (fun i j => hl j i) k.
Proof.
  intros H1 H2 HM. assert (Hn : forall c, number b c = number b' (flip c)) by (intros [i j]; unfold number, flip; cbn [fst snd]; by rewrite (mirror_num b b' i j H1 H2 HM)).
  destruct HM as (M1 & M2 & M3).
  assert (Hon : forall c, on_board b c <-> on_board b' (flip c)) by (intros [i j]; unfold on_board, flip; cbn [fst snd]; lia).
  assert (HL : forall c d, linked b hl vl c d <-> linked b' (fun i j => vl j i) (fun i j => hl j i) (flip c) (flip d)).
  { intros c d. unfold linked. rewrite <- !Hon. assert (forall c d, right_of hl c d <-> below (fun i j => hl j i) (flip c) (flip d)) as G1.
    { intros [i j] [i' j']. unfold right_of, below, flip. cbn [fst snd]. split; intros [E ?]; injection E as -> ->; done. }
    assert (forall c d, below vl c d <-> right_of (fun i j => vl j i) (flip c) (flip d)) as G2.
    { intros [i j] [i' j']. unfold right_of, below, flip. cbn [fst snd]. split; intros [E ?]; injection E as -> ->; done. }
    rewrite !G1, !G2. tauto. }
  assert (Hff : forall c, flip (flip c) = c) by (by intros [i j]).
  split; intros [S1 S2].
  - split; [by eapply (c_solution b b' _ _ _ _ flip)|]. eapply (c_blanks b' b _ _ hl vl flip); [done| | | |done].
    + intros c. by rewrite Hon, Hff.
    + intros c. by rewrite Hn, Hff.
    + intros c d. by rewrite HL, !Hff.
  - split; [|by eapply (c_blanks b b' _ _ _ _ flip)]. eapply (c_solution b' b _ _ hl vl flip); [done| | | |done].
    + intros c. by rewrite Hon, Hff.
    + intros c. by rewrite Hn, Hff.
    + intros c d. by rewrite HL, !Hff.
Qed.

Definition numbers (b : board) : nat -> nat -> Z := fun i j => default 0%Z (b_num b i j).
Lemma board_matrix b : board_ok b -> b_number b = matrix (b_rows b) (b_cols b) (numbers b).
Proof. intros (_ & _ & HL & HR & _). apply of_shapeZ. by split. Qed.
Definition flipped (b : board) : board := Board (b_cols b) (b_rows b) (matrix (b_cols b) (b_rows b) (fun i j => numbers b j i)).
Lemma flipped_ok b : board_ok b -> board_ok (flipped b) /\ mirror b (flipped b) /\ flipped (flipped b) = b.
Proof.
  intros Hb. assert (Hnum : forall i k, i < b_rows b -> k < b_cols b -> b_num (flipped b) k i = b_num b i k).
  { intros i k Hi Hk. unfold b_num at 1, flipped. cbn [b_number]. rewrite matrix_at by done. destruct (b_num_some b Hb i k Hi Hk) as (t & Et & _). unfold numbers. by rewrite Et. }
  split; [|split].
  - destruct Hb as (H1 & H2 & H3 & H4 & H5). split; [done|]. split; [done|]. split; [apply matrix_len|]. split; [apply shape_matrix|].
    intros i k t Ht. destruct (decide (i < b_cols b /\ k < b_rows b)) as [[Hi Hk]|Hn]; [rewrite Hnum in Ht by done; by apply H5 in Ht|].
    unfold b_num, flipped in Ht. cbn [b_number] in Ht. rewrite matrix_row in Ht. destruct (Nat.ltb_spec i (b_cols b)); [|done]. cbn [mbind option_bind] in Ht. rewrite row_at in Ht.
    destruct (Nat.ltb_spec k (b_rows b)); [lia|done].
  - by split.
  - pose proof (board_matrix b Hb) as EM. destruct b as [r c M]. unfold flipped. cbn [b_rows b_cols b_number] in *. f_equal. etransitivity; [|symmetry; exact EM]. apply matrix_ext. intros i j Hi Hj. unfold numbers at 1. unfold b_num at 1. cbn [b_number].
    by rewrite matrix_at.
Qed.
Lemma transpose_ok b h v : board_ok b -> 2 <= b_rows b ->
  b_transpose (b, matrix (b_rows b) (b_cols b - 1) h, matrix (b_rows b - 1) (b_cols b) v) =
  Some (flipped b, matrix (b_cols b) (b_rows b - 1) (fun i j => v j i), matrix (b_cols b - 1) (b_rows b) (fun i j => h j i)).
Proof.
  intros Hb H2. unfold b_transpose. rewrite (board_matrix b Hb). rewrite !transposed_ok by lia. done.
Qed.

(** ** answers and sets of levels *)
Section answers.
Context (b : board) (Hb : board_ok b) (Hn2 : 2 <= b_cols b).
Notation m := (b_rows b).
Notation n := (b_cols b).
Notation top := (m * (n - 1)).
Lemma level_pos i j : i < m -> j < n - 1 -> 1 <= top - i * (n - 1) - j <= top.
Proof. intros Hi Hj. assert (i * (n - 1) + j < top) as HT by nia. revert HT. generalize (i * (n - 1)), top. lia. Qed.
Lemma links_inj l l' : length l = top -> length l' = top -> Forall (fun x => x < 2) l -> Forall (fun x => x < 2) l' ->
  (forall i j, i < m -> j < n - 1 -> links_of_vec b (vec_of_list l) i j = links_of_vec b (vec_of_list l') i j) -> l = l'.
Proof.
  intros L1 L2 F1 F2 HE. apply (nth_ext _ _ 0 0); [lia|]. intros p Hp. set (t := top - 1 - p).
  assert (Hj : t mod (n - 1) < n - 1) by (apply Nat.mod_upper_bound; lia). pose proof (Nat.div_mod t (n - 1) ltac:(lia)) as Et.
  assert (Hi : t / (n - 1) < m) by (apply Nat.div_lt_upper_bound; [lia|]; unfold t; nia).
  specialize (HE _ _ Hi Hj). unfold links_of_vec in HE. replace (top - t / (n - 1) * (n - 1) - t mod (n - 1)) with (S p) in HE by (unfold t in *; nia).
  unfold vec_of_list in HE. replace (S p - 1) with p in HE by lia.
  assert (nth p l 0 < 2) by (rewrite Forall_forall in F1; apply F1, elem_of_list_In, nth_In; lia).
  assert (nth p l' 0 < 2) by (rewrite Forall_forall in F2; apply F2, elem_of_list_In, nth_In; lia).
  destruct (Nat.eqb_spec (nth p l 0) 0), (Nat.eqb_spec (nth p l' 0) 0); cbn [negb] in HE; done || lia.
Qed.
Definition list_of_links (H : nat -> nat -> bool) : list nat := map (fun p => b2n (H ((top - 1 - p) / (n - 1)) ((top - 1 - p) mod (n - 1)))) (seq 0 top).
Lemma list_of_links_ok H : length (list_of_links H) = top /\ Forall (fun x => x < 2) (list_of_links H) /\
  forall i j, i < m -> j < n - 1 -> links_of_vec b (vec_of_list (list_of_links H)) i j = H i j.
Proof.
  split; [unfold list_of_links; by rewrite map_length, seq_length|]. split.
  - apply Forall_forall. intros x Hx. apply elem_of_list_fmap in Hx as (p & -> & _). destruct (H _ _); cbn; lia.
  - intros i j Hi Hj. pose proof (level_pos i j Hi Hj) as Hlev. unfold links_of_vec, vec_of_list, list_of_links. set (p := top - i * (n - 1) - j - 1).
    set (g := fun p => b2n (H ((top - 1 - p) / (n - 1)) ((top - 1 - p) mod (n - 1)))). assert (nth p (map g (seq 0 top)) 0 = g p) as ->.
    { rewrite (nth_indep _ 0 (g 0)) by (rewrite map_length, seq_length; unfold p; lia). rewrite map_nth, seq_nth by (unfold p; lia). done. }
    unfold g. replace (top - 1 - p) with (i * (n - 1) + j) by (unfold p; nia).
    assert ((i * (n - 1) + j) / (n - 1) = i) as -> by (symmetry; apply (Nat.div_unique _ _ _ j); lia).
    assert ((i * (n - 1) + j) mod (n - 1) = j) as -> by (symmetry; apply (Nat.mod_unique _ _ i); lia). by destruct (H i j).
Qed.
End answers.
