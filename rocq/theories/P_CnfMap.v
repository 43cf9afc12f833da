(** Proofs about the map to canonical clauses. *)
From stdpp Require Import gmap sorting.
From Verif Require Import Base Sem M_Table M_Engine M_Builder M_Eval Props_Reduce S_Api M_Cnf S_Cnf P_Cnf1 M_CnfBdd P_CnfBdd M_CnfMap Sem.
Local Open Scope Z_scope.

Lemma set_add_elem s e x : x ∈ set_add s e <-> x = e \/ x ∈ s.
Proof.
  induction s as [|y s IH]; cbn [set_add]; [by rewrite elem_of_list_singleton, elem_of_nil; tauto|]. destruct (Z.ltb_spec e y); [by rewrite !elem_of_cons|]. destruct (Z.eqb_spec e y) as [->|].
  - rewrite !elem_of_cons. tauto.
  - rewrite !elem_of_cons, IH. tauto.
Qed.
Lemma new_set_elem l x : x ∈ new_set l <-> x ∈ l.
Proof.
  unfold new_set. assert (forall s, x ∈ foldl set_add s l <-> x ∈ s \/ x ∈ l) as H; [|rewrite H, elem_of_nil; tauto].
  induction l as [|y l IH]; intros s; cbn [foldl]; [rewrite elem_of_nil; tauto|]. rewrite IH, set_add_elem, elem_of_cons. tauto.
Qed.
Lemma relaxing_next a b k : relaxing_cmp b a = false -> take k a = take k b -> (k < length a)%nat -> (k < length b)%nat -> Z.abs (nth k b 0) <= Z.abs (nth k a 0).
Proof.
  revert a b. induction k as [|k IH]; intros [|x a] [|y b] H E Ha Hb; cbn [length] in *; try lia; cbn [relaxing_cmp nth take] in *.
  - destruct (Z.eqb_spec (Z.abs y) (Z.abs x)); cbn [negb] in H; [lia|]. apply Z.ltb_ge in H. lia.
  - injection E as -> E. rewrite !Z.eqb_refl in H. cbn [negb] in H. apply IH; [done|done|lia|lia].
Qed.

Section map.
  Context (nv : nat) (cnf : list (list Z)) (Hcan : Forall (fun c => canon nv c /\ c <> []) cnf) (Hsm : Z.of_nat (length cnf) <= 65535).
  Notation number j c := ((j, c) ∈ numbered_from 1 cnf).
  (** two clauses have the same literals at the levels up to i *)
  Definition same_rest (i : Z) (c c' : list Z) : Prop := forall x, level_of_lit nv x <= i -> x ∈ c <-> x ∈ c'.
  Definition sound (m : cmap) : Prop := forall i j c, i <= Z.of_nat nv -> number j c -> exists c', number (m i j) c' /\ same_rest i c c'.
  Definition rev_of (c : list Z) : list Z := reverse c ++ [0].
  Lemma rev_sorted_abs c : canon nv c -> StronglySorted (fun x y => Z.abs y < Z.abs x) (rev_of c).
  Proof.
    intros [Hr Hs]. unfold rev_of. assert (forall l, Forall (fun x => x <> 0) l -> StronglySorted (fun x y => Z.abs y < Z.abs x) l -> StronglySorted (fun x y => Z.abs y < Z.abs x) (l ++ [0])) as HA.
    { intros l HF HS. induction HS as [|x l HS IH Hf]; cbn; [repeat constructor|]. inversion_clear HF. constructor; [by apply IH|]. apply Forall_app. split; [done|]. repeat constructor. lia. }
    apply HA; [apply Forall_forall; intros x Hx; rewrite elem_of_reverse in Hx; rewrite Forall_forall in Hr; by apply Hr|]. clear -Hs.
    induction Hs as [|x c Hs IH Hf]; [constructor|]. rewrite reverse_cons. assert (Forall (fun y => Z.abs x < Z.abs y) (reverse c)) as HF. { apply Forall_forall. intros y Hy. rewrite elem_of_reverse in Hy. rewrite Forall_forall in Hf. by apply Hf. }
    revert IH HF. generalize (reverse c). clear. induction 1 as [|y l Hs IH Hf]; intros HF; cbn; [repeat constructor|]. inversion_clear HF. constructor; [by apply IH|]. apply Forall_app. split; [done|]. by repeat constructor.
  Qed.
  Lemma sorted_nth (l : list Z) a b x y : StronglySorted (fun x y => Z.abs y < Z.abs x) l -> l !! a = Some x -> l !! b = Some y -> (a < b)%nat -> Z.abs y < Z.abs x.
  Proof.
    intros HS. revert a b. induction HS as [|z l HS IH Hf]; intros a b Ha Hb Hab; [done|]. destruct b as [|b]; [lia|]. destruct a as [|a]; cbn in *.
    - injection Ha as ->. rewrite Forall_forall in Hf. apply Hf. by eapply elem_of_list_lookup_2.
    - eapply IH; [done|done|lia].
  Qed.
  Lemma nth_zero_lt c k : nth k (rev_of c) 0 <> 0 -> (S k < length (rev_of c))%nat.
  Proof.
    intros H. unfold rev_of in *. rewrite app_length. cbn. destruct (le_lt_dec (length (reverse c)) k) as [Hk|Hk]; [|lia]. exfalso. apply H. rewrite app_nth2 by done. destruct (k - length (reverse c))%nat as [|[|]]; done.
  Qed.
  (** the literals up to level i are a prefix of the reversed clause *)
  Lemma rest_prefix c k i x : canon nv c -> nth k (rev_of c) 0 <> 0 -> level_of_lit nv (nth k (rev_of c) 0) <= i -> i < level_of_lit nv (nth (S k) (rev_of c) 0) -> i <= Z.of_nat nv ->
    x ∈ c /\ level_of_lit nv x <= i <-> x ∈ take (S k) (rev_of c).
  Proof.
    intros Hc H0 H1 H2 Hi. pose proof (rev_sorted_abs c Hc) as HS. pose proof (nth_zero_lt c k H0) as Hlen.
    assert (forall n, (n < length (rev_of c))%nat -> rev_of c !! n = Some (nth n (rev_of c) 0)) as HL.
    { intros n Hn. destruct (lookup_lt_is_Some_2 _ _ Hn) as [y Ey]. rewrite Ey. f_equal. symmetry. by apply nth_lookup_Some. }
    assert (x ∈ c -> x <> 0) as Hx0 by (intros Hx; destruct Hc as [Hr _]; rewrite Forall_forall in Hr; by apply Hr).
    assert (x ∈ c <-> x ∈ rev_of c /\ x <> 0) as ->. { unfold rev_of. rewrite elem_of_app, elem_of_reverse, elem_of_list_singleton. split; [intros H; split; [by left|by apply Hx0]|]. intros [[?|?] ?]; done. }
    rewrite elem_of_take. split.
    - intros [[Hx Hn0] Hl]. apply elem_of_list_lookup in Hx as [n Hn]. exists n. split; [done|]. destruct (le_lt_dec n k) as [?|Hk]; [lia|]. exfalso. pose proof (HL (S k) Hlen) as E. unfold level_of_lit in *. destruct (decide (n = S k)) as [->|Hne].
      + rewrite Hn in E. injection E as E. rewrite <- E in H2. lia.
      + pose proof (sorted_nth _ (S k) n _ _ HS E Hn ltac:(lia)). lia.
    - intros (n & Hn & Hk). assert (Z.abs (nth k (rev_of c) 0) <= Z.abs x) as Hab. { destruct (decide (n = k)) as [->|Hne]; [rewrite (HL k) in Hn by lia; injection Hn as <-; lia|]. pose proof (sorted_nth _ n k _ _ HS Hn (HL k ltac:(lia)) ltac:(lia)). lia. }
      split; [split; [by eapply elem_of_list_lookup_2|lia]|]. unfold level_of_lit in *. lia.
  Qed.
  Lemma rest_same a b k i : canon nv a -> canon nv b -> relaxing_cmp (rev_of b) (rev_of a) = false -> take (S k) (rev_of a) = take (S k) (rev_of b) -> nth k (rev_of a) 0 <> 0 -> nth k (rev_of b) 0 = nth k (rev_of a) 0 ->
    level_of_lit nv (nth k (rev_of a) 0) <= i -> i < level_of_lit nv (nth (S k) (rev_of a) 0) -> i <= Z.of_nat nv -> same_rest i b a.
  Proof.
    intros Ha Hb Hcmp HT H0 HE H1 H2 Hi x Hx. assert (nth k (rev_of b) 0 <> 0) as H0' by (by rewrite HE).
    pose proof (relaxing_next _ _ (S k) Hcmp HT (nth_zero_lt _ _ H0) (nth_zero_lt _ _ H0')) as HN.
    pose proof (rest_prefix a k i x Ha H0 H1 H2 Hi) as PA. pose proof (rest_prefix b k i x Hb H0' ltac:(by rewrite HE) ltac:(unfold level_of_lit in *; lia) Hi) as PB. rewrite HT in PA. tauto.
  Qed.

  Definition clause_ok (p : Z * list Z) : Prop := exists c, number (fst p) c /\ snd p = rev_of c.
  Notation sorted cs := (StronglySorted (fun a b => relaxing_cmp (snd b) (snd a) = false) cs).
  Lemma number_canon j c : number j c -> canon nv c.
  Proof. intros H. by destruct (number_c nv cnf Hcan j c H). Qed.
  Lemma group_elem k t cs q : q ∈ group k t cs -> q ∈ cs /\ nth k (snd q) 0 = t.
  Proof. induction cs as [|p cs IH]; cbn [group]; [by intros H%elem_of_nil|]. destruct (Z.eqb_spec (nth k (snd p) 0) t); [|by intros H%elem_of_nil]. intros [->|H]%elem_of_cons; [split; [left|done]|]. destruct (IH H). split; [by right|done]. Qed.
  Lemma group_sorted k t p cs : sorted (p :: cs) -> sorted (p :: group k t cs).
  Proof.
    intros H. inversion_clear H as [|? ? HS HF]. constructor; [|apply Forall_forall; intros q [Hq _]%group_elem; rewrite Forall_forall in HF; by apply HF].
    clear HF. induction HS as [|q cs HS IH HF]; cbn [group]; [constructor|]. destruct (_ =? _); constructor; [done|]. apply Forall_forall; intros r [Hr _]%group_elem; rewrite Forall_forall in HF; by apply HF.
  Qed.
  Lemma first_free_ge f m i1 j2 : i1 <= first_free nv f m i1 j2.
  Proof. revert i1. induction f as [|f IH]; intros i1; cbn [first_free]; [lia|]. destruct (_ && _); [|lia]. specialize (IH (i1 + 1)). lia. Qed.
  Lemma take_S (l l' : list Z) k : take k l = take k l' -> nth k l' 0 = nth k l 0 -> (k < length l)%nat -> (k < length l')%nat -> take (S k) l = take (S k) l'.
  Proof.
    intros E En Hl Hl'. assert (forall (l : list Z), (k < length l)%nat -> l !! k = Some (nth k l 0)) as HL. { intros l0 Hn. destruct (lookup_lt_is_Some_2 _ _ Hn) as [y Ey]. rewrite Ey. f_equal. symmetry. by apply nth_lookup_Some. }
    rewrite (take_S_r l k _ (HL l Hl)), (take_S_r l' k _ (HL l' Hl')), E, En. done.
  Qed.
  Lemma make_map_sound d k cs m : sound m -> Forall clause_ok cs -> sorted cs -> (forall p q, p ∈ cs -> q ∈ cs -> take k (snd p) = take k (snd q)) -> sound (make_map nv d k cs m).
  Proof.
    revert k cs m. induction d as [|d IHd]; intros k cs m Hm HC HS HP; [done|]. cbn [make_map]. revert m Hm HC HS HP. induction cs as [|p rest IH]; intros m Hm HC HS HP; [done|].
    inversion HC as [|? ? HCp HCr]; subst. inversion HS as [|? ? HSr HFp]; subst. apply IH; [|done|done|intros p' q' Hp' Hq'; apply HP; by right]. clear IH.
    destruct rest as [|q rest']; [done|]. set (rest := q :: rest') in *. cbv zeta. destruct (Z.eqb_spec (nth k (snd p) 0) 0) as [|H0]; [done|]. destruct (negb _); [done|].
    set (i1 := first_free nv (S nv) m (level_of_lit nv (nth k (snd p) 0)) (fst q)). set (i2 := level_of_lit nv (nth (S k) (snd p) 0)). destruct (Z.of_nat nv <? i1); [done|].
    pose proof (first_free_ge (S nv) m (level_of_lit nv (nth k (snd p) 0)) (fst q)) as Hi1. fold i1 in Hi1. clearbody i1. set (g := group k (nth k (snd p) 0) rest).
    assert (forall r, r ∈ g -> r ∈ rest /\ nth k (snd r) 0 = nth k (snd p) 0) as Hg by (intros r; apply group_elem).
    assert (forall r, r ∈ g -> take (S k) (snd p) = take (S k) (snd r)) as HT.
    { intros r Hr. destruct (Hg r Hr) as [Hr1 Hr2]. rewrite Forall_forall in HCr. destruct (HCr r Hr1) as (cr & _ & Er). destruct HCp as (cq & _ & Ep). apply take_S; [apply HP; [left|by right]|done|rewrite Ep in *; by pose proof (nth_zero_lt cq k H0); lia|]. rewrite <- Hr2 in H0. rewrite Er in *. pose proof (nth_zero_lt cr k H0). lia. }
    apply IHd.
    - assert (forall r, r ∈ g -> forall i, i1 <= i < i2 -> i <= Z.of_nat nv -> forall c, number (fst r) c -> exists c', number (fst p) c' /\ same_rest i c c') as HA.
      { intros r Hr i Hi Hin c Hc. destruct (Hg r Hr) as [Hr1 Hr2]. rewrite Forall_forall in HCr, HFp. destruct (HCr r Hr1) as (cr & Hcr & Er). destruct HCp as (cq & Hcq & Ep). rewrite (number_fun cnf _ c cr Hc Hcr). exists cq. split; [done|].
        specialize (HT r Hr). specialize (HFp r Hr1). unfold i2 in Hi. rewrite Ep, Er in *. apply (rest_same cq cr k i); try done; [by eapply number_canon|by eapply number_canon|lia|lia]. }
      clear -Hm HA. clearbody i2. generalize dependent m. induction g as [|r g IH]; intros m Hm; cbn [foldl]; [done|]. apply IH; [intros r' Hr'; apply HA; by right|]. intros i j c Hi Hc. unfold assign.
      destruct ((i1 <=? i) && (i <? i2) && (j =? fst r)) eqn:E; [|by apply Hm]. apply andb_prop in E as [E1 E3]. apply andb_prop in E1 as [E1 E2]. apply Z.leb_le in E1. apply Z.ltb_lt in E2. apply Z.eqb_eq in E3 as ->. apply (HA r); [left|lia|done|done].
    - constructor; [done|]. apply Forall_forall. intros r Hr. rewrite Forall_forall in HCr. apply HCr. by apply Hg.
    - by apply group_sorted.
    - intros a b Ha Hb. rewrite elem_of_cons in Ha, Hb. assert (forall r, r = p \/ r ∈ g -> take (S k) (snd r) = take (S k) (snd p)) as HX by (intros r [->|Hr]; [done|by symmetry; apply HT]). by rewrite (HX a Ha), (HX b Hb).
  Qed.
  Lemma clause_map_sound cp : relaxed cnf cp -> sound (clause_map nv cp).
  Proof.
    intros [HP HS]. apply make_map_sound; [| |done|done].
    - intros i j c _ Hc. exists c. split; [done|]. by intros x _.
    - apply Forall_forall. intros p Hp. rewrite HP in Hp. unfold reversed in Hp. apply elem_of_list_fmap in Hp as ([j c] & -> & Hc). by exists c.
  Qed.

  (** ** the specification *)
  Context (m : cmap) (Hm : sound m).
  Definition minv (l : Z) (s : list Z * list Z) : Prop := sinv nv cnf l (fst s) /\ (l <= Z.of_nat nv -> forall x, x ∈ snd s <-> exists j, j ∈ fst s /\ x = m l j).
  (** the same rests are open *)
  Definition covers (l : Z) (s s' : list Z) : Prop := forall j c, j ∈ s -> number j c -> exists j' c', j' ∈ s' /\ number j' c' /\ same_rest l c c'.
  Lemma small_map l j : l <= Z.of_nat nv -> (exists c, number j c) -> to_work (m l j) = m l j.
  Proof. intros Hl [c Hc]. destruct (Hm l j c Hl Hc) as (c' & Hc' & _). pose proof (number_small cnf Hsm _ _ Hc') as H. unfold to_work. apply Z.mod_small. unfold small in H. lia. Qed.
  Lemma cm_cases s l take : minv l s -> 1 <= l <= Z.of_nat nv ->
    let r := cm_child nv cnf m s l take in let work := cb_work nv cnf (fst s) l take in
    r = (-1, s) /\ l - 1 <= completing nv cnf /\ work = [] \/
    fst r = l - 1 /\ fst (snd r) = work /\ minv (l - 1) (snd r) /\ ~ (l - 1 <= completing nv cnf /\ work = []).
  Proof.
    intros [HI HD] Hl r work. unfold r, cm_child. cbv zeta. fold work. destruct (child_work nv cnf Hsm (fst s) l take HI ltac:(lia)) as [HW _]. cbv zeta in HW. fold work in HW.
    destruct (Z.leb_spec (l - 1) (completing nv cnf)) as [Hc|Hc], (bool_decide_reflect (work = [])) as [E|E]; cbn [andb]; [by left|right..]; cbn [fst snd]; rewrite (new_set_sorted work) by apply HW.
    all: split; [done|]; split; [done|]; split; [|tauto || (intros [? ?]; lia)].
    all: split; [done|]; cbn [fst snd]; intros _ x; rewrite new_set_elem, elem_of_list_fmap; split.
    all: intros (j & H1 & H2).
    all: try (exists j; split; [done|]; rewrite H1; apply small_map; [lia|]; destruct HW as [_ HW]; destruct (HW j H2) as (c & Hc' & _); by exists c).
    all: exists j; split; [|done]; rewrite H2; symmetry; apply small_map; [lia|]; destruct HW as [_ HW]; destruct (HW j H1) as (c & Hc' & _); by exists c.
  Qed.
  Lemma equal_covers l s s' : minv l s -> minv l s' -> l <= Z.of_nat nv -> snd s = snd s' -> covers l (fst s) (fst s').
  Proof.
    intros [HI HD] [HI' HD'] Hl E j c Hj Hc. assert (m l j ∈ snd s') as Hin by (rewrite <- E; apply HD; [done|]; by exists j). apply HD' in Hin as (j' & Hj' & Ej); [|done]. destruct HI' as [_ HI']. destruct (HI' j' Hj') as (c' & Hc' & _).
    exists j', c'. split; [done|]. split; [done|]. destruct (Hm l j c Hl Hc) as (c1 & H1 & R1). destruct (Hm l j' c' Hl Hc') as (c2 & H2 & R2). rewrite Ej in H1. rewrite (number_fun cnf _ c1 c2 H1 H2) in R1. intros x Hx. rewrite (R1 x Hx). symmetry. by apply R2.
  Qed.
  Lemma covers_step l s s' take : sinv nv cnf l s -> sinv nv cnf l s' -> 1 <= l -> covers l s s' -> covers (l - 1) (cb_work nv cnf s l take) (cb_work nv cnf s' l take).
  Proof.
    intros HI HI' Hl HC j c Hj Hc. destruct (child_work nv cnf Hsm s l take HI Hl) as [_ HE]. destruct (child_work nv cnf Hsm s' l take HI' Hl) as [_ HE']. cbv zeta in HE, HE'. apply HE in Hj as [Hj Hn].
    assert (forall j' c', number j' c' -> same_rest l c c' -> j' ∉ (match take with O => nega nv cnf l | _ => posi nv cnf l end)) as HX.
    { intros j' c' Hc' HR Hin. apply Hn. destruct take.
      - apply (nega_elem nv cnf Hcan j' c' l Hc') in Hin as (x & H1 & H2 & H3). apply (nega_elem nv cnf Hcan j c l Hc). exists x. split; [|done]. apply HR; [unfold level_of_lit, lit_level in *; lia|done].
      - apply (posi_elem nv cnf j' c' l Hc') in Hin as (x & H1 & H2 & H3). apply (posi_elem nv cnf j c l Hc). exists x. split; [|done]. apply HR; [unfold level_of_lit, lit_level in *; lia|done]. }
    destruct Hj as [Hj|Hj].
    - destruct (HC j c Hj Hc) as (j' & c' & H1 & H2 & H3). exists j', c'. split; [apply HE'; split; [by left|by eapply HX]|]. split; [done|]. intros x Hx. apply H3. lia.
    - exists j, c. split; [apply HE'; split; [by right|done]|]. split; [done|]. by intros x _.
  Qed.
  Lemma covers_nil l s s' : sinv nv cnf l s -> covers l s s' -> s' = [] -> s = [].
  Proof. intros [_ HI] HC ->. destruct s as [|j s]; [done|]. exfalso. destruct (HI j ltac:(left)) as (c & Hc & _). destruct (HC j c ltac:(left) Hc) as (j' & c' & H & _). by apply elem_of_nil in H. Qed.
  Lemma cm_run bs l s s' : minv l s -> minv l s' -> l <= Z.of_nat nv -> covers l (fst s) (fst s') -> covers l (fst s') (fst s) -> run (cm_spec nv cnf m) l s bs = run (cm_spec nv cnf m) l s' bs.
  Proof.
    revert l s s'. induction bs as [|b bs IH]; intros l s s' HI HI' Hl HC HC'; cbn [run]; [done|]. destruct (Z.ltb_spec 0 l) as [H0|H0]; [|done]. cbv zeta. change (get_child (cm_spec nv cnf m)) with (cm_child nv cnf m). apply f_equal.
    pose proof (covers_step l (fst s) (fst s') b (proj1 HI) (proj1 HI') ltac:(lia) HC) as S1. pose proof (covers_step l (fst s') (fst s) b (proj1 HI') (proj1 HI) ltac:(lia) HC') as S2.
    destruct (child_work nv cnf Hsm (fst s) l b (proj1 HI) ltac:(lia)) as [W1 _]. destruct (child_work nv cnf Hsm (fst s') l b (proj1 HI') ltac:(lia)) as [W2 _]. cbv zeta in W1, W2.
    destruct (cm_cases s l b HI ltac:(lia)) as [(E & Hc & Ew)|(E & Es & HJ & Hn)], (cm_cases s' l b HI' ltac:(lia)) as [(E' & Hc' & Ew')|(E' & Es' & HJ' & Hn')].
    - rewrite E, E'. cbn [fst snd]. by destruct bs.
    - exfalso. apply Hn'. split; [done|]. by apply (covers_nil _ _ _ W2 S2).
    - exfalso. apply Hn. split; [done|]. by apply (covers_nil _ _ _ W1 S1).
    - change (run (cm_spec nv cnf m) (fst (cm_child nv cnf m s l b)) (snd (cm_child nv cnf m s l b)) bs = run (cm_spec nv cnf m) (fst (cm_child nv cnf m s' l b)) (snd (cm_child nv cnf m s' l b)) bs). rewrite E, E'. apply IH; [done|done|lia|by rewrite Es, Es'|by rewrite Es, Es'].
  Qed.
  Lemma minv_root : minv (Z.of_nat nv) ([], []).
  Proof. split; [apply sinv_root|]. intros _ x. cbn. split; [by intros H%elem_of_nil|]. intros (j & H & _). by apply elem_of_nil in H. Qed.
  Lemma cm_reach l s : reach (cm_spec nv cnf m) l s -> minv l s /\ 1 <= l <= Z.of_nat nv.
  Proof.
    induction 1 as [H|l s b Hr IH Hb Hc].
    - cbn [cm_spec get_root] in *. unfold cb_root in *. destruct (Nat.eqb_spec nv 0); cbn [fst snd] in *; [lia|]. split; [apply minv_root|lia].
    - destruct IH as [HI Hl]. change (get_child (cm_spec nv cnf m)) with (cm_child nv cnf m) in *. destruct (cm_cases s l b HI Hl) as [(E & _)|(E & _ & HI' & _)]; [rewrite E in Hc; cbn in Hc; lia|].
      change (minv (fst (cm_child nv cnf m s l b)) (snd (cm_child nv cnf m s l b)) /\ 1 <= fst (cm_child nv cnf m s l b) <= Z.of_nat nv). change (0 < fst (cm_child nv cnf m s l b)) in Hc. rewrite E in Hc |- *. split; [done|lia].
  Qed.
  Lemma cm_contract : spec_ok (cm_spec nv cnf m) /\ one_code (cm_spec nv cnf m) /\ (top_level (cm_spec nv cnf m) <= nv)%nat.
  Proof.
    assert (forall l s b, reach (cm_spec nv cnf m) l s -> -1 <= fst (cm_child nv cnf m s l b) < l) as Hlev.
    { intros l s b Hr. destruct (cm_reach l s Hr) as [HI Hl]. destruct (cm_cases s l b HI Hl) as [(E & _)|(E & _)]; rewrite E; cbn [fst]; lia. }
    split_and!.
    - constructor; [cbn; lia|intros l s b Hr _; by apply Hlev|]. intros l s s' Hr Hr' E. cbn [cm_spec equal_to] in E. apply bool_decide_eq_true in E. destruct (cm_reach l s Hr) as [HI Hl]. destruct (cm_reach l s' Hr') as [HI' _].
      intros bs _. apply cm_run; [done|done|lia|by apply equal_covers; [..|lia|]|by apply equal_covers; [..|lia|]].
    - split; [cbn [cm_spec get_root]; unfold cb_root; destruct (nv =? 0)%nat; cbn [fst snd]; lia|]. intros l s b Hr _. by apply Hlev.
    - unfold top_level. cbn [cm_spec get_root]. unfold cb_root. destruct (nv =? 0)%nat; cbn [fst snd]; lia.
  Qed.
  (** the function is the one without the map *)
  Lemma cm_eval w l c s : bdd_eval (cm_spec nv cnf m) l c s w = bdd_eval (cb_spec nv cnf (fun _ => CC true)) l c (fst s) w.
  Proof.
    revert c s. induction l as [|l IH]; intros c s; cbn [bdd_eval]; [done|]. destruct (c =? Z.of_nat (S l)); [|done]. rewrite IH. change (get_child (cm_spec nv cnf m)) with (cm_child nv cnf m). cbn [cb_spec get_child]. unfold cm_child, cb_child. cbv zeta. cbn [bad_state negb mbind option_bind]. unfold default, id. by destruct (_ && _).
  Qed.
  Lemma cm_sem w : bdd_sem (cm_spec nv cnf m) nv w = bdd_sem (cb_spec nv cnf (fun _ => CC true)) nv w.
  Proof. unfold bdd_sem. rewrite cm_eval. cbn [cm_spec cb_spec get_root fst snd]. done. Qed.
End map.
