(** * P_StallEx: an endless fair execution that meets the hypotheses of P_Stall (C62). *)
From Verif Require Export P_Stall P_LiveEx.
Set Default Proof Using "Type".

(** A is alone in round 0 of height 1 (as in P_LiveEx): its state machine never gets out of the
    round, its instance is never told of another height and stays a validator, and its records are
    written. What is left of C62 is that its choke of round 0 is broadcast, after any moment. *)
Lemma turn_inside s i : choking nA s -> held_in 1 0 stuck_smr ->
  held_in 1 0 (nd_smr (tn s i)) /\ s_height (nd_st (tn s i)) = 1 /\ s_power (nd_st (tn s i)) = true.
Proof.
  intros (H1 & _) Hh. injection H1 as _ H2 H3 _. unfold tn. destruct (turn_cases i) as (k & -> & Hk). rewrite turn_at.
  destruct_or! Hk; subst k; split; [exact Hh|split; [exact H3|exact H2]|exact Hh|split; [exact H3|exact H2]|exact Hh|split; [exact H3|exact H2]|exact Hh|split; [exact H3|exact H2]|exact Hh|split; [exact H3|exact H2]].
Qed.
Lemma turn_signs s : P_Answer.signs (tg s).
Proof.
  intros i e inp s0 o r Hin z. unfold tg in Hin. destruct (turn_cases i) as (k & E & Hk). rewrite E, turn_at in Hin. clear E.
  destruct_or! Hk; subst k; cbn [turn Nat.modulo Nat.divmod fst snd Nat.sub] in Hin; apply elem_of_list_singleton in Hin.
  1-4: discriminate Hin.
  assert (e = live_env) as -> by congruence. by eexists.
Qed.
Lemma turn_records s i : forall e ev s0 o r, tg s i = [NState e ev s0 o r] -> ev = IEvent again /\ forall w, ~ ASave w false ∈ o.
Proof.
  intros e ev s0 o r Hg. unfold tg in Hg. destruct (turn_cases i) as (k & E & Hk). rewrite E, turn_at in Hg. clear E.
  destruct_or! Hk; subst k; cbn [turn Nat.modulo Nat.divmod fst snd Nat.sub] in Hg.
  1-4: discriminate Hg.
  assert (ev = IEvent again) as -> by congruence. split; [done|]. assert (o = chokes_out s) as -> by congruence.
  intros w Hin. unfold chokes_out in Hin.
  rewrite !elem_of_cons in Hin. destruct Hin as [Hin|[Hin|[Hin|Hin]]]; [discriminate Hin..|by apply elem_of_nil in Hin].
Qed.
Lemma stuck_held : held_in 1 0 stuck_smr.
Proof. apply (bool_decide_unpack _). vm_compute. exact I. Qed.
Example stalled_execution : let s := nd_st stuck in let x := tn s in let lab := tl s in let lg := tg s in
  execution nlc ntenc ntdec true (ncr nA) (nboot nA None) None x lab lg /\ fair x lab lg /\ boots ntdec true (nboot nA None) None /\
  P_Answer.signs lg /\
  (forall i, held_in 1 0 (nd_smr (x i)) /\ s_height (nd_st (x i)) = 1 /\ s_power (nd_st (x i)) = true) /\
  (forall i e inp s o r, lg i = [NState e inp s o r] -> inp = IEvent again /\ forall w, ~ ASave w false ∈ o).
Proof.
  cbv zeta. destruct stuck_execution as (H1 & H2 & H3 & _). pose proof stuck_state as H4. pose proof stuck_held as H5.
  generalize dependent (nd_st stuck). intros s H1 H2 H4.
  split; [exact H1|]. split; [exact H2|]. split; [exact H3|]. split; [apply turn_signs|].
  split; [intros i; exact (turn_inside s i H4 H5)|]. intros i. apply turn_records.
Qed.
(** So, in this execution, A's choke of round 0 is broadcast after any moment. *)
Example stalled_chokes : let s := nd_st stuck in forall i, exists j e s0 o r sc, (i <= j)%nat /\ tg s j = [NState e (IEvent again) s0 o r] /\
  ABroadcast (MChoke sc) ∈ o /\ ck_height (sc_choke sc) = 1 /\ ck_round (sc_choke sc) = 0 /\ sc_addr sc = nA.
Proof.
  intros s i. destruct stalled_execution as (H1 & H2 & H3 & H4 & H5 & H6). fold s in H1, H2, H4, H5, H6.
  destruct (C62_stalled_validators_keep_asking _ _ _ _ _ _ _ _ _ _ _ H1 H2 H3 H4 1 0 i eq_refl) as (j & Hij & [Ho|[Ho|[Ho|(e & lr & s0 & o & r & Hg & Hc)]]]).
  - destruct Ho. apply H5.
  - destruct Ho. apply H5.
  - destruct (H5 j) as (_ & _ & E). by rewrite E in Ho.
  - destruct (H6 _ _ _ _ _ _ Hg) as [E Hs]. assert (lr = None) as -> by (unfold again in E; congruence).
    destruct Hc as [(w & Hw)|[Hn|(sc & Hb & Hx)]]; [by destruct (Hs w)|by destruct Hn|].
    exists j, e, s0, o, r, sc. split_and!; try done; try apply Hx.
Qed.
