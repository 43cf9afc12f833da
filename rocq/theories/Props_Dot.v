(** C59: the DOT file of a specification shows its diagram. *)
From Coq Require Import Ascii String.
From Verif Require Import Base Sem M_Table M_Hash P_Hash M_Text M_Dot S_Dot P_Dot P_Dot2.
Local Open Scope nat_scope.

Lemma no_reach sp : (fst (get_root sp) <= 0)%Z -> forall l s, ~ reach sp l s.
Proof. intros H l s Hr. induction Hr as [Hp|]; [lia|done]. Qed.
Lemma levels_text level_text n : dt_levels level_text n =
  show_all (map (fun i => SLevel i (level_text i)) (reverse (seq 1 n)) ++ map (fun i => SBelow (i + 1) i) (reverse (seq 1 (n - 1)))).
Proof. rewrite show_all_app. unfold show_all, dt_levels. by rewrite !map_map. Qed.

(** For every specification that keeps the contract, whose equal_to is symmetric and whose hash_code respects it: dumpDot writes
    a DOT file.  With at most four branches per node, a reader who follows the arrows finds the function of the specification. *)
Theorem C59_dot : forall (sp : spec) (level_text : nat -> text) (state_text : St sp -> nat -> text) (title : text),
  spec_ok sp -> shareable sp -> exists (ss : list stmt) (state : name -> option (St sp)),
    dump_dot sp level_text state_text title = Some (show_file title ss) /\
    well_drawn sp level_text state_text ss state /\
    (ar sp <= 4 -> forall n v, vec_ok (ar sp) v ->
      zdd_sem (picture (ar sp) ss) n v = zdd_sem sp n v /\ bdd_sem (picture (ar sp) ss) n v = bdd_sem sp n v).
Proof.
  intros sp level_text state_text title Hok [Hsym Hhash]. unfold dump_dot. destruct (get_root sp) as [c s] eqn:Er.
  destruct (Z.eqb_spec c 0) as [->|Hc0]; [|destruct (Z.ltb_spec c 0) as [Hneg|Hpos]].
  - exists (match title with [] => [] | _ => [STitle title] end), (fun _ => None). split; [|split].
    + unfold show_file. destruct title; cbn [dt_title map concat show]; rewrite ?app_nil_r, <- ?app_assoc; done.
    + assert (forall (P : stmt -> Prop) z, z ∈ (match title with [] => [] | _ => [STitle title] end) -> z = STitle title) as Hin.
      { intros _ z. destruct title; [intros H; inversion H|]. by rewrite elem_of_list_singleton. }
      constructor; try (intros; done).
      * intros x t. split; [intros H; apply (Hin (fun _ => True)) in H; discriminate H|intros (? & ? & _); done].
      * destruct title; constructor.
      * intros x y st H; apply (Hin (fun _ => True)) in H; discriminate H.
      * intros x [? ?]. done.
      * intros x y H; apply (Hin (fun _ => True)) in H; discriminate H.
      * intros i t. unfold top_level. rewrite Er. cbn. split; [intros H; apply (Hin (fun _ => True)) in H; discriminate H|lia].
      * intros _ i t H. exfalso. eapply no_reach; [|exact H]. rewrite Er. cbn. lia.
    + intros Ha n v Hv. unfold zdd_sem, bdd_sem. rewrite Er.
      assert (get_root (picture (ar sp) (match title with [] => [] | _ => [STitle title] end)) = (0%Z, None)) as -> by (by destruct title). apply eval_zero.
  - exists [SStart title (0, 1); SOne (0, 1)], (fun _ => None). split; [|split].
    + unfold show_file. cbn [map concat show]. unfold dt_start, dt_one. rewrite !show_name_eq. rewrite ?app_nil_r, <- ?app_assoc. done.
    + constructor; try (intros; done).
      * intros x t. rewrite !elem_of_cons, elem_of_nil. split; [intros [H|[H|H]]; done|intros (? & ? & _); done].
      * constructor.
      * intros x y st. rewrite !elem_of_cons, elem_of_nil. intros [H|[H|H]]; done.
      * intros x [? ?]. done.
      * intros x y. rewrite !elem_of_cons, elem_of_nil. intros [H|[H|H]]; done.
      * intros i t. unfold top_level. rewrite Er. cbn [fst]. rewrite !elem_of_cons, elem_of_nil. split; [intros [H|[H|H]]; done|lia].
      * intros _ i t H. exfalso. eapply no_reach; [|exact H]. rewrite Er. cbn. lia.
    + intros Ha n v Hv. unfold zdd_sem, bdd_sem. rewrite Er. apply eval_neg; [done|done].
  - destruct (Z_of_nat_complete c ltac:(lia)) as [n ->]. rewrite Nat2Z.id. assert (Hn : 0 < n) by lia.
    assert (Hr : reach sp (Z.of_nat n) s) by (pose proof (reach_root sp) as H; rewrite Er in H; apply H; cbn; lia).
    destruct (all_ok sp Hok Hsym Hhash level_text state_text n s
      ((lit "digraph " ++ dt_quoted title ++ lit " {" ++ [nl]) ++ dt_levels level_text n ++ dt_start title (mk n 0)) Hn Hr) as (dm & tb & chs & E & Hone & HS & Ht & Ha & HF & HK).
    rewrite E. cbn [mbind option_bind].
    exists (final sp level_text state_text title n tb (dm_one _ dm) chs), (state sp tb). split; [|split].
    + f_equal. assert (dt_hidden (dm_one sp dm) = []) as -> by (by destruct Hone as [->| ->]). 
      assert (show_all (final sp level_text state_text title n tb (dm_one sp dm) chs) = dt_levels level_text n ++ show_all (SStart title (n, 0) :: body sp state_text n tb chs ++ [SOne (0, col (dm_one sp dm))])) as Hf.
      { unfold final. by rewrite app_assoc, show_all_app, <- levels_text. }
      unfold show_file. unfold show_all in Hf at 1. rewrite Hf.
      assert (show_all (SStart title (n, 0) :: body sp state_text n tb chs ++ [SOne (0, col (dm_one sp dm))]) = dt_start title (mk n 0) ++ show_all (body sp state_text n tb chs) ++ dt_one (dm_one sp dm)) as ->.
      { change (SStart title (n, 0) :: body sp state_text n tb chs ++ [SOne (0, col (dm_one sp dm))]) with ([SStart title (n, 0)] ++ body sp state_text n tb chs ++ [SOne (0, col (dm_one sp dm))]). rewrite !show_all_app. f_equal; [|f_equal].
        - unfold show_all, dt_start. cbn [map concat show]. rewrite !show_name_eq, app_nil_r. done.
        - unfold show_all, dt_one. cbn [map concat show]. rewrite !show_name_eq, app_nil_r. by destruct Hone as [->| ->]. }
      rewrite <- !app_assoc. done.
    + apply drawn_final; try done; [by rewrite Ht|by rewrite Er|by rewrite Er, Ht].
    + intros Ha4 m v Hv. eapply root_eval; rewrite ?Er; try done; by rewrite Ht.
Qed.

(** With five or more branches per node the values from 3 on all give green arrows: two different functions have the same file. *)
Definition five (b0 : nat) : spec := {|
  St := unit; ar := 5; get_root := (1%Z, tt); get_child := fun _ _ b => (if b =? b0 then (-1)%Z else 0%Z, tt); equal_to := fun _ _ _ => true; hash_code := fun _ _ => 0%N |}.
Lemma five_ok b0 : spec_ok (five b0) /\ shareable (five b0).
Proof.
  split; [|done]. constructor; [cbn; lia| |].
  - assert (forall l s, reach (five b0) l s -> l = 1%Z) as H1.
    { intros l s Hr. induction Hr as [|l s b Hr IH Hb Hp]; [done|]. cbn in Hp. destruct (b =? b0); lia. }
    intros l s b Hr Hb. apply H1 in Hr as ->. cbn. destruct (b =? b0); lia.
  - intros l [] [] _ _ _. done.
Qed.
Theorem C59_many_values_refuted : ~ forall (sp sp' : spec) (level_text : nat -> text) (state_text : St sp -> nat -> text) (state_text' : St sp' -> nat -> text) (title : text),
  spec_ok sp -> shareable sp -> spec_ok sp' -> shareable sp' -> ar sp = ar sp' ->
  dump_dot sp level_text state_text title = dump_dot sp' level_text state_text' title ->
  forall n v, vec_ok (ar sp) v -> zdd_sem sp n v = zdd_sem sp' n v.
Proof.
  intros H. destruct (five_ok 3) as [A1 A2], (five_ok 4) as [B1 B2].
  specialize (H (five 3) (five 4) (fun _ => lit "1") (fun _ _ => lit "x") (fun _ _ => lit "x") (lit "t") A1 A2 B1 B2 eq_refl).
  assert (dump_dot (five 3) (fun _ => lit "1") (fun _ _ => lit "x") (lit "t") = dump_dot (five 4) (fun _ => lit "1") (fun _ _ => lit "x") (lit "t")) as E by (vm_compute; reflexivity).
  specialize (H E 1 (fun _ => 3)). assert (vec_ok 5 (fun _ => 3)) as Hv by (intros ?; lia). specialize (H Hv). vm_compute in H. discriminate H.
Qed.

(** A case: exactly one of two items; the state is the number of items taken, and it is printed. *)
Definition one_of_two : spec := {|
  St := nat; ar := 2; get_root := (2%Z, 0);
  get_child := fun s l b => let s' := s + b in
    if 1 <? s' then (0%Z, s') else if (l =? 1)%Z then (if s' =? 1 then (-1)%Z else 0%Z, s') else ((l - 1)%Z, s');
  equal_to := fun _ s s' => s =? s'; hash_code := fun _ s => N.of_nat s |}.
Lemma one_of_two_ok : spec_ok one_of_two /\ shareable one_of_two.
Proof.
  split; [constructor; [cbn; lia| |]|split].
  - assert (forall l s, reach one_of_two l s -> (1 <= l)%Z) as H1.
    { intros l s Hr. induction Hr as [|l s b Hr IH Hb Hp]; [cbn; lia|]. revert Hp. cbn. destruct (1 <? s + b); [cbn; lia|]. destruct (Z.eqb_spec l 1); [destruct (s + b =? 1); cbn; lia|]. cbn. lia. }
    intros l s b Hr Hb. apply H1 in Hr. cbn [get_child one_of_two]. destruct (1 <? s + b); [cbn; lia|]. destruct (l =? 1)%Z; [destruct (s + b =? 1)|]; cbn; lia.
  - intros l s s' _ _ E bs _. cbn in E. by apply Nat.eqb_eq in E as ->.
  - intros l s s'. apply Nat.eqb_sym.
  - intros l s s' E. cbn in *. by apply Nat.eqb_eq in E as ->.
Qed.
Definition pairs_stmts : list stmt :=
  [SLevel 2 (lit "2"); SLevel 1 (lit "1"); SBelow 2 1; SStart (lit "t") (2, 0);
   SNode (2, 0) (lit "0"); SEdge (2, 0) (1, 0) Dashed; SEdge (2, 0) (1, 1) Solid; SRank 2 [(2, 0)];
   SNode (1, 1) (lit "1"); SNode (1, 0) (lit "0"); SEdge (1, 0) (0, 2) Solid; SEdge (1, 1) (0, 2) Dashed; SRank 1 [(1, 0); (1, 1)];
   SOne (0, 2)].
Example C59_case : spec_ok one_of_two /\ shareable one_of_two /\
  dump_dot one_of_two (fun i => dec i) (fun s _ => dec s) (lit "t") = Some (show_file (lit "t") pairs_stmts) /\
  map (zdd_sem (picture 2 pairs_stmts) 2) [fun _ => 0; fun _ => 1; fun i => i - 1; fun i => 2 - i] = [false; false; true; true].
Proof. split; [apply one_of_two_ok|]. split; [apply one_of_two_ok|]. split; vm_compute; reflexivity. Qed.

Print Assumptions C59_dot.
Print Assumptions C59_many_values_refuted.
Print Assumptions C59_case.
