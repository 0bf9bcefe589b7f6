(** * NodeLive: a timeout is always on its way (for C51). *)
From Verif Require Export VoteOrder.
Set Default Proof Using "Type".

(** ** Timeouts *)
Definition enters (e : smr_event) : Prop := match e with EvNewRound _ _ _ _ _ _ _ => True | _ => False end.
Lemma feed_height tm evs : tm_height tm <= tm_height (feed tm evs).
Proof.
  revert tm. induction evs as [|e evs IH]; intros tm; [done|]. rewrite feed_cons. etrans; [|apply IH].
  destruct e; simpl; try lia. destruct (tm_height tm <? height) eqn:E; bsimp; lia.
Qed.
Lemma feed_round tm evs : Forall (not ∘ enters) evs -> tm_round (feed tm evs) = tm_round tm.
Proof.
  revert tm. induction evs as [|e evs IH]; intros tm Hf; [done|]. rewrite feed_cons. apply Forall_cons in Hf as [He Hf].
  rewrite IH by done. destruct e; try done. by destruct He.
Qed.
(** What the expiry of an event's timeout tells the state machine. *)
Definition fires (e : smr_event) (t : trigger) : Prop := exists tm, timer_trigger tm e = Ok (Some t).
Lemma waits_pos m m' e : mpos m' = mpos m -> waits_for m e -> waits_for m' e.
Proof.
  unfold mpos. intros Hp. simplify_eq. assert (m_step m' = m_step m) as Hst by (destruct (m_step m'), (m_step m); simpl in *; congruence).
  unfold waits_for. rewrite Hst. destruct (m_step m), e; try done; naive_solver.
Qed.
Lemma fires_trigger tm e t : fires e t -> forall t', timer_trigger tm e = Ok (Some t') -> t' = t.
Proof.
  intros [tm' Ht] t' Ht'. destruct e; simpl in *; try done;
  (match type of Ht with (if ?b then _ else _) = _ => destruct b end; [done|]);
  (match type of Ht' with (if ?b then _ else _) = _ => destruct b end; [done|]); congruence.
Qed.
Lemma fires_acts m e t m' o r :
  waits_for m e -> fires e t -> smr_step open_chans t m = (m', o, r) ->
  exists ev, o = [ToState ev; ToTimer ev] /\ waits_for m' ev.
Proof.
  intros Hw Hf Hs. destruct (expiry_progress m e (mkTimer (tconfig_new 0) 0 0) Hw) as (t' & m1 & o1 & ev & Ht & Hs' & _ & _ & _ & -> & Hev); [apply N.le_0_l..|].
  rewrite (fires_trigger _ _ _ Hf _ Ht) in Hs'. rewrite Hs' in Hs. injection Hs as <- <- <-. by exists ev.
Qed.
Lemma step_enters t m m' o r :
  smr_step open_chans t m = (m', o, r) -> trig_in_range t -> not_wal t -> mpos m' = mpos m -> Forall (not ∘ enters) (to_timer o).
Proof.
  intros H Hr Hw Hp. unfold trig_in_range, not_wal, open_chans in *.
  smr_go H; try congruence; unfold to_timer; simpl; rewrite ?Forall_cons, ?Forall_nil; simpl; try done; try tauto;
  exfalso; unfold mpos in *; simpl in *; simplify_eq; rewrite ?w64_succ in * by lia; try lia.
Qed.
Lemma last_split {A} (l : list A) x : stdpp.list.last l = Some x -> exists l', l = l' ++ [x].
Proof.
  destruct l as [|y l _] using rev_ind; [done|]. rewrite last_snoc. intros [= <-]. by exists l.
Qed.

Section L.
Context {T : Type} `{EqDecision T}.
Context (lc : lcfg) (tenc : T -> bytes) (tdec : bytes -> option T) (spill : bool) (cr : crypto).
Local Notation noderun := (noderun lc tenc tdec spill cr).

(** Where the timeout of [e] is: not yet armed, armed, expired, or reported to the state machine. *)
Inductive on_its_way (n : node T) (e : smr_event) : Prop :=
| w_tevs l1 l2 : nd_tevs n = l1 ++ e :: l2 -> Forall (not ∘ enters) l2 -> on_its_way n e
| w_sleeps : e ∈ nd_sleeps n -> Forall (not ∘ enters) (nd_tevs n) -> on_its_way n e
| w_fired : e ∈ nd_fired n -> Forall (not ∘ enters) (nd_tevs n) -> on_its_way n e
| w_trig t : t ∈ nd_trig n -> fires e t -> on_its_way n e.
Record live (n : node T) : Prop := mkLive {
  lv_timer : timer_inv (nd_smr n) (feed (nd_tm n) (nd_tevs n));
  lv_armed : 0 < m_height (nd_smr n) -> m_step (nd_smr n) <> SCommit -> exists e, waits_for (nd_smr n) e /\ on_its_way n e }.

Lemma live_same (n n' : node T) :
  nd_smr n' = nd_smr n -> nd_tm n' = nd_tm n -> nd_tevs n' = nd_tevs n -> nd_sleeps n' = nd_sleeps n ->
  nd_fired n' = nd_fired n -> (forall t, t ∈ nd_trig n -> t ∈ nd_trig n') -> live n -> live n'.
Proof.
  clear lc tenc tdec spill cr. intros E1 E2 E3 E4 E5 E6 [L1 L2]. split; [by rewrite E1, E2, E3|]. rewrite E1. intros Hh Hs.
  destruct (L2 Hh Hs) as (e & Hw & Ho). exists e. split; [done|]. destruct Ho as [l1 l2 Ht Hl|Ht Hl|Ht Hl|t Ht Hf].
  - eapply w_tevs; [by rewrite E3|done].
  - apply w_sleeps; by rewrite ?E3, ?E4.
  - apply w_fired; by rewrite ?E3, ?E5.
  - by eapply w_trig; [apply E6|].
Qed.
Lemma elem_delete {A} (l : list A) k x y : l !! k = Some y -> x ∈ l -> x = y \/ x ∈ delete k l.
Proof.
  intros Hk [i Hi]%elem_of_list_lookup. destruct (decide (i = k)) as [->|Hne]; [left; congruence|]. right.
  destruct (decide (i < k)%nat).
  - apply elem_of_list_lookup. exists i. by rewrite lookup_delete_lt.
  - apply elem_of_list_lookup. exists (i - 1)%nat. rewrite lookup_delete_ge by lia. replace (S (i - 1)) with i by lia. done.
Qed.
Lemma live_step F l (n n' : node T) log :
  ninv n -> nostop n -> vmode F n -> nd_on n = true -> live n ->
  nstep lc tenc cr l n = Some (n', log) -> smr_in_range log -> live n'.
Proof.
  clear tdec spill. intros Hni (_ & _ & _ & _ & _ & Hnt & Hso & Hto) Hv Hon Hl Hs Hrg.
  apply nstep_inv in Hs as [m -> ->|e i n0 s o r Ho Hp Hr -> ->|t q m o r ? Eq Hr -> ->|k a m Hk0 -> ->|k h r x b ok ? -> ->|ev q Htm Eq -> ->|k ev Hk0 -> ->|ev q Htm Eq -> ->].
  - by apply (live_same n).
  - apply popped_same in Hp as (E1 & E2 & E3 & E4 & E5 & E6 & E7 & E8 & E9 & E10 & E11 & E12).
    apply (live_same n); simpl; try done. intros t Ht. rewrite E7. apply elem_of_app. by left.
  - rewrite Hon, Hto in Hr. change (mkChans true true) with open_chans in Hr.
    assert (trig_in_range t) as Hin by (eapply Hrg; by left).
    destruct Hl as [L1 L2].
    assert (fresh_or_no_wal t (feed (nd_tm n) (nd_tevs n)) /\ (not_wal t \/ t_type t = TWalInfo /\ t_wal t <> None)) as [Hfw Hwal].
    { destruct Hv as [H0 A1 A2 A3 A4 (B1 & B2 & _) A6|j tw pre post A1 A2 A3 A4 A5 A6 (B1 & B2 & _) A8 A9 A10 A11 A12|c c' A1 A2 A3 A4 A5 A6].
      - rewrite Eq in A6. apply Forall_cons in A6 as [A6 _].
        assert (not_wal t) by (unfold not_wal; destruct A6 as [(x & -> & _)|(_ & ? & _)]; done). split; by left.
      - destruct pre as [|t0 pre]; simpl in A1; rewrite Eq in A1; injection A1 as -> ->.
        + split; [|right; split; [done|congruence]]. right. rewrite A6 in L1. destruct L1 as [I1 I2].
          change (m_height smr_init) with 0 in I1. change (m_round smr_init) with 0 in I2. split; lia.
        + apply Forall_cons in A4 as [(_ & ? & _) _]. split; by left.
      - rewrite Eq in A4. apply Forall_cons in A4 as [? _]. split; by left. }
    split; simpl.
    { rewrite feed_app. by eapply timer_inv_step. }
    intros Hh Hsc.
    assert ((mpos m <> mpos (nd_smr n) \/ t_type t = TWalInfo /\ t_wal t <> None) \/ (mpos m = mpos (nd_smr n) /\ not_wal t)) as [Hmv|[Hsame Hnw]].
    { destruct Hwal as [?|?]; [|by left; right]. destruct (decide (mpos m = mpos (nd_smr n))); [by right|by left; left]. }
    { destruct (step_arms _ _ _ _ _ Hr Hin Hsc Hmv) as (e & Hlast & He). exists e. split; [done|].
      apply last_split in Hlast as [l' El]. apply (w_tevs _ _ (nd_tevs n ++ l') []); simpl; [|done]. by rewrite El, app_assoc. }
    assert (0 < m_height (nd_smr n) /\ m_step (nd_smr n) <> SCommit) as [Hh0 Hs0].
    { unfold mpos in Hsame. split; [congruence|]. intros E. rewrite E in Hsame. destruct (m_step m); simpl in *; congruence. }
    destruct (L2 Hh0 Hs0) as (e & Hw & Ho). pose proof (step_enters _ _ _ _ _ Hr Hin Hnw Hsame) as Hno.
    assert (forall t', t' = t -> fires e t' -> exists e0, waits_for m e0 /\ on_its_way (mkNode (nd_st n) (nd_on n) m (match r with Ok true | Err _ => true | _ => false end)
       (nd_tm n) (nd_tm_on n) (nd_raw n) q (nd_evs n ++ to_state o) (nd_tevs n ++ to_timer o) (nd_fired n) (nd_queue n) (nd_resp n) (nd_verifs n) (nd_checks n)
       (nd_sleeps n)) e0) as Hnow.
    { intros t' -> Hf. destruct (fires_acts _ _ _ _ _ _ Hw Hf Hr) as (ev & -> & Hev). exists ev. split; [done|].
      apply (w_tevs _ _ (nd_tevs n) []); simpl; done. }
    destruct Ho as [l1 l2 Ht Hl|Ht Hl|Ht Hl|t' Ht Hf].
    + exists e. split; [by eapply waits_pos|]. apply (w_tevs _ _ l1 (l2 ++ to_timer o)); simpl.
      * by rewrite Ht, <-app_assoc.
      * by apply Forall_app.
    + exists e. split; [by eapply waits_pos|]. apply w_sleeps; simpl; [done|by apply Forall_app].
    + exists e. split; [by eapply waits_pos|]. apply w_fired; simpl; [done|by apply Forall_app].
    + rewrite Eq in Ht. apply elem_of_cons in Ht as [Ht|Ht]; [by eapply Hnow|].
      exists e. split; [by eapply waits_pos|]. by eapply w_trig.
  - destruct (verify_msg tenc cr a m); by apply (live_same n).
  - destruct ok; by apply (live_same n).
  - destruct Hl as [L1 L2]. rewrite Eq, feed_cons in L1.
    assert (ev <> EvStop) as Hns by (intros ->; apply Hnt; rewrite Eq; by left).
    assert (nd_smr (arm_move ev (set_tevs q n)) = nd_smr n /\ nd_trig (arm_move ev (set_tevs q n)) = nd_trig n /\
      nd_tevs (arm_move ev (set_tevs q n)) = q /\ nd_fired (arm_move ev (set_tevs q n)) = nd_fired n) as (E1 & E2 & E3 & E4)
      by (destruct (arm_same ev (set_tevs q n)) as (? & ? & ? & ? & ? & ? & ? & ? & ? & _); done).
    assert (nd_tm (arm_move ev (set_tevs q n)) = timer_note (nd_tm n) ev) as E5.
    { unfold arm_move. rewrite <-set_timer_note. destruct ev; try done; simpl; destruct (set_timer _ _) as [tm [[[ms e]|]| |]]; done. }
    assert (forall x, x ∈ nd_sleeps n -> x ∈ nd_sleeps (arm_move ev (set_tevs q n))) as E6.
    { intros x Hx. unfold arm_move. destruct ev; try done; destruct (set_timer _ _) as [tm [[[ms e]|]| |]]; simpl; try done; apply elem_of_app; by left. }
    assert (waits_for (nd_smr n) ev -> ev ∈ nd_sleeps (arm_move ev (set_tevs q n))) as E7.
    { unfold waits_for, arm_move. intros Hw. destruct ev; destruct (m_step (nd_smr n)); try done; simpl; apply elem_of_app; right; by left. }
    split; [by rewrite E1, E3, E5|]. rewrite E1. intros Hh Hsc. destruct (L2 Hh Hsc) as (e & Hw & Ho). exists e. split; [done|].
    destruct Ho as [l1 l2 Ht Hl|Ht Hl|Ht Hl|t' Ht Hf].
    + rewrite Eq in Ht. destruct l1 as [|e1 l1]; injection Ht as -> ->.
      * apply w_sleeps; [by apply E7|by rewrite E3].
      * by apply (w_tevs _ _ l1 l2).
    + rewrite Eq in Hl. apply Forall_cons in Hl as [_ Hl]. apply w_sleeps; [by apply E6|by rewrite E3].
    + rewrite Eq in Hl. apply Forall_cons in Hl as [_ Hl]. apply w_fired; by rewrite ?E3, ?E4.
    + eapply w_trig; by rewrite ?E2.
  - destruct Hl as [L1 L2]. split; [done|]. simpl. intros Hh Hsc. destruct (L2 Hh Hsc) as (e & Hw & Ho). exists e. split; [done|].
    destruct Ho as [l1 l2 Ht Hl|Ht Hl|Ht Hl|t' Ht Hf].
    + by apply (w_tevs _ _ l1 l2).
    + destruct (elem_delete _ _ _ _ Hk0 Ht) as [->|Hd].
      * apply w_fired; simpl; [|done]. apply elem_of_app; right; by left.
      * by apply w_sleeps.
    + apply w_fired; simpl; [|done]. apply elem_of_app. by left.
    + by eapply w_trig.
  - destruct Hl as [L1 L2].
    assert (nd_smr (fire_move ev (set_fired q n)) = nd_smr n /\ nd_tm (fire_move ev (set_fired q n)) = nd_tm n /\
      nd_tevs (fire_move ev (set_fired q n)) = nd_tevs n /\ nd_fired (fire_move ev (set_fired q n)) = q /\ nd_sleeps (fire_move ev (set_fired q n)) = nd_sleeps n /\
      (forall t, t ∈ nd_trig n -> t ∈ nd_trig (fire_move ev (set_fired q n)))) as (E1 & E2 & E3 & E4 & E5 & E6).
    { destruct (fire_same ev (set_fired q n)) as (? & ? & ? & ? & ? & ? & ? & ? & ? & ? & ? & ? & ? & ? & ? & Htr). split_and!; try done.
      destruct Htr as [->|(t & _ & ->)]; [done|]. set_solver. }
    split; [by rewrite E1, E2, E3|]. rewrite E1. intros Hh Hsc. destruct (L2 Hh Hsc) as (e & Hw & Ho). exists e. split; [done|].
    destruct Ho as [l1 l2 Ht Hl|Ht Hl|Ht Hl|t' Ht Hf].
    + apply (w_tevs _ _ l1 l2); by rewrite ?E3.
    + apply w_sleeps; by rewrite ?E3, ?E5.
    + rewrite Eq in Ht. apply elem_of_cons in Ht as [->|Ht]; [|apply w_fired; by rewrite ?E3, ?E4].
      destruct L1 as [I1 I2]. rewrite feed_round in I2 by done. pose proof (feed_height (nd_tm n) (nd_tevs n)) as I3.
      destruct (expiry_progress _ _ (nd_tm n) Hw) as (t & _ & _ & _ & Ht & _); [lia|done|].
      apply (w_trig _ _ t); [|by exists (nd_tm n)]. unfold fire_move. simpl. rewrite Ht, Hso. simpl. apply elem_of_app. right. by left.
    + eapply w_trig; [by apply E6|done].
Qed.
Lemma noderun_live b cfg log n w :
  noderun b cfg log n -> boots tdec spill b w -> smr_in_range log -> nd_on n = true -> live n.
Proof.
  intros Hr Hb. induction Hr as [n log Hs|log n l n' log' Hr IH Hs]; intros Hrg Hon.
  - unfold nstart in Hs. destruct (on_start _ _ _ _ _ _) as [[s o] r]. injection Hs as <- <-. split; simpl; [by split|]. intros Hx. exfalso. revert Hx. simpl. apply N.lt_irrefl.
  - assert (smr_in_range log /\ smr_in_range log') as [Hr1 Hr2]
      by (split; intros t m o r Hin; eapply Hrg; apply elem_of_app; eauto).
    assert (nd_on n = true) as Hon0.
    { apply nstep_inv in Hs as [m -> ->|e i n0 s o r Ho Hp Hx -> ->|t q m o r ? Eq Hx -> ->|k a m Hk0 -> ->|k h r x b0 ok ? -> ->|ev q Htm Eq -> ->|k ev Hk0 -> ->|ev q Htm Eq -> ->]; try done.
      - by destruct (verify_msg tenc cr a m).
      - by destruct ok.
      - destruct (arm_same ev (set_tevs q n)) as (_ & E & _). by rewrite E in Hon.
      - destruct (fire_same ev (set_fired q n)) as (_ & E & _). by rewrite E in Hon. }
    destruct (noderun_flow _ _ _ _ _ _ _ _ _ w Hr Hb Hr1) as (F & _ & Hv).
    apply (live_step F l n n' log'); auto; [by eapply noderun_ninv|by eapply noderun_nostop].
Qed.
End L.
