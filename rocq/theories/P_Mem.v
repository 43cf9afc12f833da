(** Facts about reading and writing memory. *)
From Verif Require Import Base M_Mem.
From stdpp Require Import gmap.

Lemma get_set h p x h' : m_set h p x = Some h' -> m_get h' p = Some x.
Proof.
  unfold m_set, m_get. destruct p as [[b o]|]; [|done]. cbn [mbind option_bind]. destruct (h !! b) as [c|] eqn:E; [|done]. cbn [mbind option_bind].
  destruct (Nat.ltb_spec o (length c)); [|done]. intros E'. injection E' as <-. rewrite lookup_insert. cbn [mbind option_bind]. by rewrite list_lookup_insert.
Qed.
Lemma get_set_ne h p q x h' : m_set h p x = Some h' -> p <> q -> m_get h' q = m_get h q.
Proof.
  unfold m_set, m_get. destruct p as [[b o]|]; [|done]. cbn [mbind option_bind]. destruct (h !! b) as [c|] eqn:E; [|done]. cbn [mbind option_bind].
  destruct (Nat.ltb_spec o (length c)); [|done]. intros E' Hne. injection E' as <-. destruct q as [[b' o']|]; [|done]. cbn [mbind option_bind].
  destruct (decide (b' = b)) as [->|]; [|by rewrite lookup_insert_ne]. rewrite lookup_insert, E. cbn [mbind option_bind]. rewrite list_lookup_insert_ne; [done|congruence].
Qed.
(** where writes are defined; they keep block sizes *)
Definition sizes (h h' : mem) : Prop := forall b, length <$> (h' !! b) = length <$> (h !! b).
Lemma sizes_refl h : sizes h h. Proof. by intros b. Qed.
Lemma sizes_trans h1 h2 h3 : sizes h1 h2 -> sizes h2 h3 -> sizes h1 h3. Proof. intros H1 H2 b. by rewrite H2. Qed.
Lemma set_sizes h p x h' : m_set h p x = Some h' -> sizes h h'.
Proof.
  unfold m_set. destruct p as [[b o]|]; [|done]. cbn [mbind option_bind]. destruct (h !! b) as [c|] eqn:E; [|done]. cbn [mbind option_bind].
  destruct (Nat.ltb_spec o (length c)); [|done]. intros E' b'. injection E' as <-. destruct (decide (b' = b)) as [->|]; [|by rewrite lookup_insert_ne].
  rewrite lookup_insert, E. cbn. by rewrite insert_length.
Qed.
Lemma set_some h b o x c : h !! b = Some c -> o < length c -> exists h', m_set h (Some (b, o)) x = Some h' /\ (forall b', b' <> b -> h' !! b' = h !! b') /\ h' !! b = Some (<[o := x]> c).
Proof.
  intros E Ho. unfold m_set. cbn [mbind option_bind]. rewrite E. cbn [mbind option_bind]. rewrite (proj2 (Nat.ltb_lt _ _) Ho). eexists. split; [done|].
  split; [|by rewrite lookup_insert]. intros b' Hb. by rewrite lookup_insert_ne.
Qed.
Lemma set_frame h b o x h' : m_set h (Some (b, o)) x = Some h' -> forall b', b' <> b -> h' !! b' = h !! b'.
Proof.
  unfold m_set. cbn [mbind option_bind]. destruct (h !! b) as [c|] eqn:E; [|done]. cbn [mbind option_bind]. destruct (o <? length c); [|done].
  intros E' b' Hb. injection E' as <-. by rewrite lookup_insert_ne.
Qed.
Lemma write_frame h b o vs h' : m_write h (Some (b, o)) vs = Some h' -> forall b', b' <> b -> h' !! b' = h !! b'.
Proof.
  revert h o. induction vs as [|v vs IH]; intros h o; cbn [m_write]; [intros E; injection E as <-; done|].
  destruct (m_set _ _ _) as [h1|] eqn:E1; [|done]. cbn [mbind option_bind]. intros E b' Hb. cbn [p_add mbind option_bind] in E.
  rewrite (IH _ _ E b' Hb). by eapply set_frame.
Qed.
Lemma write_sizes h p vs h' : m_write h p vs = Some h' -> sizes h h'.
Proof.
  revert h p. induction vs as [|v vs IH]; intros h p; cbn [m_write]; [intros E; injection E as <-; apply sizes_refl|].
  destruct (m_set _ _ _) as [h1|] eqn:E1; [|done]. cbn [mbind option_bind]. intros E. eapply sizes_trans; [by eapply set_sizes|by eapply IH].
Qed.
Lemma write_total h b o vs c : h !! b = Some c -> o + length vs <= length c -> exists h', m_write h (Some (b, o)) vs = Some h'.
Proof.
  revert h o c. induction vs as [|v vs IH]; intros h o c E Hl; cbn [m_write]; [by eexists|]. cbn [length] in Hl.
  destruct (set_some h b o v c E ltac:(lia)) as (h1 & E1 & _ & E2). rewrite E1. cbn [mbind option_bind p_add].
  apply (IH _ _ _ E2). rewrite insert_length. lia.
Qed.
Lemma write_other h b o vs h' b' o' : m_write h (Some (b, o)) vs = Some h' -> (b' = b -> o' < o \/ o + length vs <= o') -> m_get h' (Some (b', o')) = m_get h (Some (b', o')).
Proof.
  revert h o. induction vs as [|v vs IH]; intros h o; cbn [m_write length]; [intros E; injection E as <-; done|].
  destruct (m_set _ _ _) as [h1|] eqn:E1; [|done]. cbn [mbind option_bind p_add]. intros E H.
  rewrite (IH _ _ E) by (intros; specialize (H ltac:(done)); lia). eapply get_set_ne; [exact E1|]. intros E'. injection E' as -> ->. specialize (H ltac:(done)). lia.
Qed.
Lemma read_ext h h' b o n : (forall o', o <= o' < o + n -> m_get h' (Some (b, o')) = m_get h (Some (b, o'))) -> m_read h' (Some (b, o)) n = m_read h (Some (b, o)) n.
Proof.
  revert o. induction n as [|n IH]; intros o H; cbn [m_read]; [done|]. rewrite H by lia. destruct (m_get h _); [|done]. cbn [mbind option_bind p_add].
  by rewrite IH by (intros; apply H; lia).
Qed.
Lemma read_write h b o vs h' : m_write h (Some (b, o)) vs = Some h' -> m_read h' (Some (b, o)) (length vs) = Some vs.
Proof.
  revert h o. induction vs as [|v vs IH]; intros h o; cbn [m_write length m_read]; [done|].
  destruct (m_set _ _ _) as [h1|] eqn:E1; [|done]. cbn [mbind option_bind p_add]. intros E.
  rewrite (write_other _ _ _ _ _ _ _ E) by lia. rewrite (get_set _ _ _ _ E1). cbn [mbind option_bind]. by rewrite (IH _ _ E).
Qed.
Lemma read_frame h h' b o n : h' !! b = h !! b -> m_read h' (Some (b, o)) n = m_read h (Some (b, o)) n.
Proof. intros E. apply read_ext. intros o' _. unfold m_get. cbn [mbind option_bind]. by rewrite E. Qed.
Lemma get_frame h h' b o : h' !! b = h !! b -> m_get h' (Some (b, o)) = m_get h (Some (b, o)).
Proof. intros E. unfold m_get. cbn [mbind option_bind]. by rewrite E. Qed.
Lemma write_length h b o vs h' c : m_write h (Some (b, o)) vs = Some h' -> h !! b = Some c -> exists c', h' !! b = Some c' /\ length c' = length c.
Proof.
  intros E Hb. pose proof (write_sizes _ _ _ _ E b) as Hs. rewrite Hb in Hs. destruct (h' !! b) as [c'|]; [|done]. injection Hs as Hs. by exists c'.
Qed.
