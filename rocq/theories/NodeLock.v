(** * NodeLock: the rules of LockRules hold of the votes of an instance, through crashes (for C28). *)
From Verif Require Export LockRules.
Set Default Proof Using "Type".

Section N.
Context {T : Type} `{EqDecision T}.
Context (lc : lcfg) (tenc : T -> bytes) (tdec : bytes -> option T) (spill : bool) (cr : crypto).
Local Notation noderun := (noderun lc tenc tdec spill cr).
Local Notation react := (react lc tenc).

(** ** The lock that is recorded for an event *)
Definition ev_lock (ev : smr_event) : option N :=
  match ev with
  | EvNewRound _ _ lr _ _ _ _ | EvPrevote _ _ _ lr | EvPrecommit _ _ _ lr | EvBrake _ _ lr => lr
  | _ => None
  end.
Lemma lock_to_save_round (s : st T) lr l : lock_to_save s lr = Some l -> wl_round <$> l = lr.
Proof.
  unfold lock_to_save. destruct lr as [k|]; [|by intros [= <-]]. destruct (vc_get_qc_by_id _ _ _ _) as [q| |]; [|done..].
  destruct (s_blocks s !! _); [|done]. by intros [= <-].
Qed.
Lemma brake_lock e rd lr s s' o r w b : handle_brake (T:=T) e rd lr s = (s', o, r) -> ASave w b ∈ o -> wl_round <$> wi_lock w = lr.
Proof.
  clear lc tenc tdec spill cr. intros Hb Hw. unfold handle_brake, get in Hb.
  destruct (negb _); [unfold fail in Hb; simplify_eq; by apply elem_of_nil in Hw|].
  destruct (cr_sign _ _) as [sig|]; [|unfold fail in Hb; simplify_eq; by apply elem_of_nil in Hw].
  revert Hb. generalize (mkSChoke sig (mkChoke (s_height s) (s_round s) (s_from s)) (s_addr s)). intros sc Hb.
  unfold bind at 1, emit at 1 in Hb. unfold bind at 1, modify at 1 in Hb.
  set (s1 := set_s_chokes _ s) in Hb.
  match type of Hb with context [bind ?x ?k s1] => destruct (bind x k s1) as [[s2 o2] r2] eqn:E2 end.
  assert (o = AOwnChoke sc :: o2) as -> by (simplify_eq; done). apply elem_of_cons in Hw as [?|Hw]; [done|].
  assert (forall s3 o3 r3, save_wal_with_lock_round e SBrake lr s1 = (s3, o3, r3) -> ASave w b ∈ o3 -> wl_round <$> wi_lock w = lr) as Hsv.
  { intros s3 o3 r3 H1 Hin. apply save_lr_inv in H1 as [-> H1].
    destruct (lock_to_save s1 lr) as [l|] eqn:El; destruct H1 as [-> _]; [|by apply elem_of_nil in Hin].
    apply elem_of_list_singleton in Hin. injection Hin as -> _. by apply lock_to_save_round in El. }
  apply bind_inv in E2 as [(u & s3 & o3 & o4 & H1 & H2 & ->)|[(x & H1 & ->)|(H1 & ->)]]; [|by eapply Hsv..].
  apply elem_of_app in Hw as [Hw|Hw]; [by eapply Hsv|].
  exfalso. assert (keeps nosaveR (bind (broadcast (MChoke sc)) (fun _ => check_choke_above_threshold (T:=T) e))) as Hk
    by (keeps_go (nosave_comp (T:=T)); unfold nosaveR; repeat first [apply List.Forall_nil|apply List.Forall_cons]; done).
  apply Hk in H2. by apply nosave_in in Hw.
Qed.
Lemma event_lock e ev s s' o r w b :
  react e (IEvent ev) s = (s', o, r) -> ASave w b ∈ o -> wi_height w = s_height s -> wi_step w <> SCommit ->
  wl_round <$> wi_lock w = ev_lock ev.
Proof.
  clear tdec spill cr. intros Hr Hw Hh Hst.
  destruct ev as [h rd lr lp from iv cf|h rd hash lr|h rd hash lr|hash|h rd lr|].
  6: { exfalso. revert Hr. unfold StateHist.react, on_event, get, bind, logged, ret, handle_event.
       destruct (s_stopped s); [intros; simplify_eq; by apply elem_of_nil in Hw|].
       destruct (negb _); [intros; simplify_eq; by apply elem_of_nil in Hw|]. simpl. intros; simplify_eq. by apply elem_of_nil in Hw. }
  all: eapply react_core in Hr; [|reflexivity]; destruct Hr as [(_ & _ & -> & _)|(_ & r' & Hx & _)]; [by apply elem_of_nil in Hw|].
  - apply new_round_inv in Hx as (o1 & -> & Hx).
    assert (ASave w b ∈ o1) as Hw1.
    { apply elem_of_app in Hw as [Hw|Hw]; [|done]. unfold view_changes in Hw.
      destruct (rd =? INIT_ROUND); [by apply elem_of_nil in Hw|by apply elem_of_list_singleton in Hw]. }
    destruct Hx as [(-> & _)|(uf & l & _ & _ & Hl & Hx)]; [by apply elem_of_nil in Hw1|]. apply lock_to_save_round in Hl.
    destruct Hx as [(_ & -> & _)|(_ & o2 & -> & Hx)].
    + apply elem_of_list_singleton in Hw1. injection Hw1 as -> _. exact Hl.
    + apply elem_of_cons in Hw1 as [Hw1|Hw1]; [injection Hw1 as -> _; exact Hl|].
      apply nosave_propose in Hx. by apply nosave_in in Hw1.
  - apply vote_event_inv in Hx as [(_ & -> & _)|(sig & l & _ & Hl & [(_ & _ & -> & _)|(_ & o2 & Hx)])]; [by apply elem_of_nil in Hw|..].
    + apply elem_of_list_singleton in Hw. injection Hw as -> _. by eapply lock_to_save_round.
    + destruct (s_leader s); destruct Hx as [-> Hx]; (apply elem_of_cons in Hw as [Hw|[?|Hw]%elem_of_cons]; [injection Hw as -> _; by eapply lock_to_save_round|done|]);
        apply quiet_vp in Hx; unfold quietR in Hx; rewrite Forall_forall in Hx; by apply Hx in Hw as [? _].
  - apply vote_event_inv in Hx as [(_ & -> & _)|(sig & l & _ & Hl & [(_ & _ & -> & _)|(_ & o2 & Hx)])]; [by apply elem_of_nil in Hw|..].
    + apply elem_of_list_singleton in Hw. injection Hw as -> _. by eapply lock_to_save_round.
    + destruct (s_leader s); destruct Hx as [-> Hx]; (apply elem_of_cons in Hw as [Hw|[?|Hw]%elem_of_cons]; [injection Hw as -> _; by eapply lock_to_save_round|done|]);
        apply quiet_vp in Hx; unfold quietR in Hx; rewrite Forall_forall in Hx; by apply Hx in Hw as [? _].
  - exfalso. apply commit_inv in Hx as [(-> & -> & _)|(content & qc & H1 & H2 & [(_ & -> & ->)|(_ & Hx)])].
    + by apply elem_of_nil in Hw.
    + apply elem_of_list_singleton in Hw. injection Hw as -> _. done.
    + destruct (e_commit e _ _) as [stt|].
      * destruct Hx as (o2 & -> & Hx). apply elem_of_cons in Hw as [Hw|[?|Hw]%elem_of_cons]; [by injection Hw as -> _|done|].
        destruct (get_proposer _ _ _ _); [|destruct Hx as (_ & -> & _); by apply elem_of_nil in Hw..].
        apply (moveR_goto (IEvent (EvCommit hash))) in Hx as [_ M _]; [|done]. apply M in Hw as [Hw|(_ & _ & _ & ev & [= <-] & E)].
        -- simpl in Hw. lia.
        -- done.
      * destruct Hx as (_ & -> & _). apply elem_of_cons in Hw as [Hw|?%elem_of_list_singleton]; [|done]. by injection Hw as -> _.
  - unfold get in Hx. destruct (negb _); [unfold ret in Hx; simplify_eq; by apply elem_of_nil in Hw|]. by eapply brake_lock.
Qed.

(** A record of the commit step holds a certificate for the hash of the event. *)
Lemma commit_lock ops e x (s s' : st T) o r w b l :
  s_votes s = vops ops -> handle_commit lc e x s = (s', o, r) -> ASave w b ∈ o -> wi_lock w = Some l -> av_hash (wl_votes l) = x.
Proof.
  clear tenc tdec spill cr. intros Ev Hx Hw El.
  assert (forall content qc, vc_get_qc_by_hash (s_votes s) (s_height s) x Precommit = Some qc ->
            w = commit_record s qc content -> av_hash (wl_votes l) = x) as Hc.
  { intros content qc H2 ->. simpl in El. injection El as <-. simpl. rewrite Ev in H2. by apply lookup_hash in H2 as (_ & _ & E & _). }
  apply commit_inv in Hx as [(-> & -> & _)|(content & qc & H1 & H2 & [(_ & -> & ->)|(_ & Hx)])].
  - by apply elem_of_nil in Hw.
  - apply elem_of_list_singleton in Hw. injection Hw as -> _. eauto.
  - destruct (e_commit e _ _) as [stt|].
    + destruct Hx as (o2 & -> & Hx). apply elem_of_cons in Hw as [Hw|[?|Hw]%elem_of_cons]; [injection Hw as -> _; eauto|done|].
      destruct (get_proposer _ _ _ _); [|destruct Hx as (_ & -> & _); by apply elem_of_nil in Hw..].
      rewrite (rec_goto _ _ _ _ _ _ _ _ Hx Hw) in El. done.
    + destruct Hx as (_ & -> & _). apply elem_of_cons in Hw as [Hw|?%elem_of_list_singleton]; [|done]. injection Hw as -> _; eauto.
Qed.
Lemma event_commit ops e ev s s' o r w b l :
  s_votes s = vops ops -> react e (IEvent ev) s = (s', o, r) -> ASave w b ∈ o ->
  (s_height s < wi_height w \/ wi_step w = ev_step ev) -> rec_in s w ->
  wi_step w = SCommit -> wi_lock w = Some l -> ev = EvCommit (av_hash (wl_votes l)).
Proof.
  clear tdec spill cr. intros Ev Hr Hw Hst Hrec Hsc El.
  destruct (Hrec l El) as [Eh _]. destruct Hst as [?|Hst]; [lia|]. rewrite Hsc in Hst.
  destruct ev as [h rd lr lp from iv cf|h rd hash lr|h rd hash lr|hash|h rd lr|]; try discriminate Hst.
  - eapply react_core in Hr; [|reflexivity]; destruct Hr as [(_ & _ & -> & _)|(_ & r' & Hx & _)]; [by apply elem_of_nil in Hw|].
    f_equal. symmetry. by eapply commit_lock.
  - exfalso. revert Hr. unfold StateHist.react, on_event, get, bind, logged, ret, handle_event.
    destruct (s_stopped s); [intros; simplify_eq; by apply elem_of_nil in Hw|].
    destruct (negb _); [intros; simplify_eq; by apply elem_of_nil in Hw|]. simpl. intros; simplify_eq. by apply elem_of_nil in Hw.
Qed.

(** ** Records that fit the votes *)
(** [Q]: the certificates that are genuine. There are no two genuine prevote certificates of one
    height and round for different hashes. *)
Context (Q : aggvote -> Prop).
Definition cert (h r : N) (x : bytes) : Prop :=
  exists q, Q q /\ av_type q = Prevote /\ av_height q = h /\ av_round q = r /\ av_hash q = x.
Local Notation G := cert.
Local Notation safe := (safe G).
Local Notation rules := (rules G).
Local Notation lev_run := (lev_run G).

Definition wsafe (vs : list vote) (w : walinfo T) : Prop :=
  rules vs /\ (forall v, v ∈ vs -> v_height v <= wi_height w) /\
  (wi_step w <> SCommit -> safe vs (wal_pos w) (sb_polc (into_smr_base w))) /\
  (forall l, wi_step w = SCommit -> wi_lock w = Some l -> av_hash (wl_votes l) <> []).
Definition osafe (vs : list vote) (w : option (walinfo T)) : Prop :=
  match w with None => vs = [] | Some w => wsafe vs w end.

(** [lflow vs cur l]: every record written by [l] fits the votes before it, and a vote follows
    directly a record that was written and fits with the vote too. *)
Fixpoint lflow (vs : list vote) (cur : option (walinfo T)) (l : list (bool * action T)) : Prop :=
  match l with
  | [] => True
  | (b, a) :: l =>
      match a with
      | ASave w ok => wsafe vs w /\ lflow vs (if ok : bool then Some w else None) l
      | _ => match vote_of a with
             | Some v => if b : bool then (exists w, cur = Some w /\ wsafe (vs ++ [v]) w) /\ lflow (vs ++ [v]) cur l else True
             | None => lflow vs cur l
             end
      end
  end.
Definition all_fresh (l : list (bool * action T)) : Prop := Forall (fun x => x.1 = true) (votes_in l).
Definition cast_in (l : list (bool * action T)) : list vote := (votes_in l).*2.
Lemma cast_app l1 l2 : cast_in (l1 ++ l2) = cast_in l1 ++ cast_in l2.
Proof. unfold cast_in. by rewrite votes_in_app, fmap_app. Qed.
Lemma all_fresh_app l1 l2 : all_fresh (l1 ++ l2) <-> all_fresh l1 /\ all_fresh l2.
Proof. unfold all_fresh. by rewrite votes_in_app, Forall_app. Qed.
Lemma lflow_app vs cur l1 l2 :
  lflow vs cur l1 -> (all_fresh l1 -> forall cur', lflow (vs ++ cast_in l1) cur' l2) -> lflow vs cur (l1 ++ l2).
Proof.
  revert vs cur. induction l1 as [|[b a] l1 IH]; intros vs cur H1 H2; simpl in *.
  - specialize (H2 ltac:(constructor) cur). by rewrite app_nil_r in H2.
  - unfold all_fresh, cast_in, votes_in in H2. simpl in H2. destruct (vote_of a) as [v|] eqn:Ev; simpl in H2.
    + assert (forall X (Y : Prop), match a with ASave w ok => X w ok | _ => Y end = Y) as Ea by (intros; by destruct a).
      rewrite Ea in H1 |- *. destruct b; [|done]. destruct H1 as [H0 H1]. split; [done|]. apply IH; [done|].
      intros Hf cur'. rewrite <-app_assoc. apply H2. by constructor.
    + destruct a; try (apply IH; [exact H1|exact H2]). destruct H1 as [H0 H1]. split; [done|]. apply IH; [exact H1|exact H2].
Qed.
Lemma lflow_prefix vs cur l1 l2 : lflow vs cur (l1 ++ l2) -> lflow vs cur l1.
Proof.
  revert vs cur. induction l1 as [|[b a] l1 IH]; intros vs cur H1; simpl in *; [done|].
  destruct (vote_of a) as [v|] eqn:Ev.
  - assert (forall X (Y : Prop), match a with ASave w ok => X w ok | _ => Y end = Y) as Ea by (intros; by destruct a).
    rewrite Ea in H1 |- *. destruct b; [|done]. destruct H1 as [H0 H1]. split; [done|]. by apply IH.
  - destruct a; try (apply IH; exact H1). destruct H1 as [H0 H1]. split; [done|]. by apply IH.
Qed.
Lemma lflow_none vs l cur : lflow vs None l -> lflow vs cur l.
Proof.
  revert cur. induction l as [|[b a] l IH]; intros cur H1; simpl in *; [done|].
  destruct (vote_of a) as [v|] eqn:Ev.
  - assert (forall X (Y : Prop), match a with ASave w ok => X w ok | _ => Y end = Y) as Ea by (intros; by destruct a).
    rewrite Ea in H1 |- *. destruct b; [|done]. destruct H1 as [(? & ? & _) _]. done.
  - destruct a; try (apply IH; exact H1). done.
Qed.
Lemma lflow_quiet vs cur b o :
  Forall (fun a => vote_of a = None) o -> (forall w ok, ASave w ok ∈ o -> wsafe vs w) -> lflow vs cur ((b,.) <$> o).
Proof.
  intros Hv Hs. revert cur. induction o as [|a o IH]; intros cur; simpl; [done|]. apply Forall_cons in Hv as [Ha Hv].
  assert (forall cur, lflow vs cur ((b,.) <$> o)) as H1.
  { apply IH; [done|]. intros w ok Hw. apply (Hs w ok). by right. }
  rewrite Ha. destruct a; try apply H1. split; [eapply Hs; left|apply H1].
Qed.
Lemma cast_quiet b (o : list (action T)) : Forall (fun a => vote_of a = None) o -> votes_in ((b,.) <$> o) = [].
Proof. induction 1 as [|a o Ha _ IH]; [done|]. unfold votes_in in *. simpl. by rewrite Ha. Qed.
Lemma cast_one b w ok (a : action T) v l : vote_of a = Some v -> votes_in ((b, ASave w ok) :: (b, a) :: l) = (b, v) :: votes_in l.
Proof. intros Ea. unfold votes_in. simpl. by rewrite Ea. Qed.
Lemma lflow_stored vs cur l w0 w' :
  osafe vs w0 -> lflow vs cur l -> (forall x, cur = Some x -> w0 = Some x) -> all_fresh l -> stored w0 l.*2 w' ->
  osafe (vs ++ cast_in l) w'.
Proof.
  revert vs cur w0. induction l as [|[b a] l IH]; intros vs cur w0 Ho Hl Hc Hf Hs.
  { simpl in *. inversion Hs; subst. by rewrite app_nil_r. }
  unfold all_fresh, cast_in, votes_in in Hf |- *. simpl in Hf, Hl |- *. cbn [fmap list_fmap snd] in Hs.
  destruct (vote_of a) as [v|] eqn:Ev; simpl in *.
  - assert (forall X (Y : Prop), match a with ASave w ok => X w ok | _ => Y end = Y) as Ea by (intros; by destruct a).
    rewrite Ea in Hl. apply Forall_cons in Hf as [Hb Hf]. simpl in Hb. subst b. destruct Hl as [(x & -> & Hx) Hl].
    rewrite (Hc x eq_refl) in *. inversion Hs; subst; try discriminate Ev. 
    rewrite cons_middle, app_assoc. eapply (IH (vs ++ [v]) (Some x) (Some x)); done.
  - destruct a as [x ok| | | | | | | | | | | |]; try (inversion Hs; subst; eapply IH; done).
    destruct Hl as [Hx Hl]. inversion Hs; subst; try done.
    + eapply (IH vs _ (Some x)); try done. by destruct ok; intros ? [= <-].
    + by eapply (IH vs None w0).
Qed.

(** ** The invariant *)
(** What waits in the queue of events fits the votes: the lock at the cursor does, or the next
    event is a new height. *)
Definition ready (vs : list vote) (c : pos) (k : option lock) (evs : list smr_event) : Prop :=
  safe vs c k \/
  (rules vs /\ (forall v, v ∈ vs -> v_height v <= ph c) /\
   exists h r lr lp fr iv cf evs', evs = EvNewRound h r lr lp fr iv cf :: evs' /\ ph c < h).
Lemma ready_rules vs c k evs : ready vs c k evs -> rules vs.
Proof. intros [[? _ _ _]|[? _]]; done. Qed.
Lemma ready_height vs c k evs v : ready vs c k evs -> v ∈ vs -> v_height v <= ph c.
Proof. intros [H|(_ & H & _)]; [by apply (safe_height G vs c k)|auto]. Qed.
Lemma ready_app vs c k evs evs' : ready vs c k evs -> ready vs c k (evs ++ evs').
Proof. intros [H|(H1 & H2 & h & r & lr & lp & fr & iv & cf & evs1 & -> & Hlt)]; [by left|]. right. split_and!; [done..|]. simpl. eauto 12. Qed.
Lemma ready_step vs c k ev evs c' k' : ready vs c k (ev :: evs) -> lev_step G c k ev c' k' -> safe vs c' k'.
Proof.
  intros [H|(H1 & H2 & h & r & lr & lp & fr & iv & cf & evs1 & [= -> ->] & Hlt)] Hs; [by eapply safe_step|].
  destruct Hs as [Hs Hl]. destruct c as [[h0 r0] s0]. simpl in Hs, Hl. destruct Hs as [_ ->]. unfold ph in *. simpl in *.
  destruct Hl as [_ [[_ ->]|[? _]]]; [|lia]. apply safe_higher; [done| |done]. intros v Hv. apply H2 in Hv. lia.
Qed.
Lemma ready_vote vs c k ev evs x : ready vs c k (ev :: evs) -> vote_event ev = Some x -> safe vs c k.
Proof. intros [H|(_ & _ & h & r & lr & lp & fr & iv & cf & evs1 & [= -> ->] & _)]; done. Qed.
Inductive lmode (vs : list vote) (n : node T) : Prop :=
| lm_idle H0 : 0 < H0 -> rules vs -> (forall v, v ∈ vs -> v_height v <= H0) -> H0 <= s_height (nd_st n) ->
    nd_smr n = smr_init -> no_events n ->
    Forall (fun t => (exists x, t_type t = TNewHeight x /\ H0 < ss_height x) \/ other_height t) (nd_trig n) -> lmode vs n
| lm_pending i t pre post : nd_trig n = pre ++ t :: post -> t_type t = TWalInfo -> t_wal t = Some i ->
    Forall other_height pre -> Forall not_wal post -> nd_smr n = smr_init -> no_events n ->
    0 < sb_height i -> sb_step i <> SCommit ->
    safe vs (sb_height i, sb_round i, step_u8 (sb_step i)) (sb_polc i) ->
    sb_height i <= s_height (nd_st n) -> (s_height (nd_st n) = sb_height i -> s_round (nd_st n) = sb_round i) -> lmode vs n
| lm_active c k c' : ready vs c k (nd_evs n) -> lev_run c k (nd_evs n) c' (m_lock (nd_smr n)) -> at_smr c' (nd_smr n) ->
    lock_ok (nd_smr n) -> Forall not_wal (nd_trig n) ->
    (s_power (nd_st n) = true -> s_height (nd_st n) = ph c -> s_round (nd_st n) = pr c) ->
    (c.2 <= 3 \/ ph c < s_height (nd_st n)) -> lmode vs n.
Lemma lmode_same vs n n' :
  nd_st n' = nd_st n -> nd_smr n' = nd_smr n -> nd_trig n' = nd_trig n -> nd_evs n' = nd_evs n ->
  (no_events n -> no_events n') -> lmode vs n -> lmode vs n'.
Proof.
  intros E1 E2 E3 E4 E5 [H0 ? ? ? ? ? ? ?|i t pre post ? ? ? ? ? ? ? ? ? ? ? ?|c k c' ? ? ? ? ? ? ?].
  - eapply (lm_idle _ _ H0); rewrite ?E1, ?E2, ?E3; auto.
  - eapply (lm_pending _ _ i t pre post); rewrite ?E1, ?E2, ?E3; auto.
  - eapply (lm_active _ _ c k c'); rewrite ?E1, ?E2, ?E3, ?E4; auto.
Qed.

Ltac pos_lia := unfold ple, plt, wal_pos, vote_pos, ph, pr in *; simpl in *; lia.
(** A record of a height the votes have not reached. *)
Lemma wsafe_higher vs (w : walinfo T) :
  rules vs -> (forall v, v ∈ vs -> v_height v < wi_height w) ->
  (forall l, wi_step w <> SCommit -> wi_lock w = Some l -> G (wi_height w) (wl_round l) (av_hash (wl_votes l))) ->
  (forall l, wi_step w = SCommit -> wi_lock w = Some l -> av_hash (wl_votes l) <> []) -> wsafe vs w.
Proof.
  intros Hr Hh Hl Hcm. split; [done|]. split; [intros v Hv; apply Hh in Hv; lia|]. split; [|done]. intros Hst. apply safe_higher; [done..|].
  intros l E. simpl in E. destruct (wi_lock w) as [l'|]; [|done]. injection E as <-. simpl. by apply Hl.
Qed.
(** A record of the state's own height holds a lock the node has a genuine certificate of. *)
Lemma rec_cert ops s (w : walinfo T) l :
  s_votes s = vops ops -> (forall q, VQC q ∈ ops -> Q q) -> rec_in s w -> wi_lock w = Some l -> wi_step w <> SCommit ->
  wi_height w = s_height s /\ G (wi_height w) (wl_round l) (av_hash (wl_votes l)).
Proof.
  intros Ev Hq Hrec El Hst. destruct (Hrec l El) as (Eh & _ & [[_ Hx]|[? _]]); [|done]. split; [done|].
  rewrite Ev in Hx. apply lookup_id in Hx as (Hin & E1 & E2 & E3). exists (wl_votes l). rewrite Eh. split_and!; auto.
Qed.

Context (Uq : forall h r x y, G h r x -> G h r y -> x = y).

Lemma state_lmode vs (n : node T) ops e i n0 s o r :
  ninv n -> nostop n -> s_votes (nd_st n) = vops ops -> (forall q, VQC q ∈ ops -> Q q) ->
  lmode vs n -> popped i n n0 -> react e i (nd_st n) = (s, o, r) ->
  let l := (VoteOrder.fresh i (nd_st n),.) <$> o in
  lflow vs None l /\ (all_fresh l -> forall b, lmode (vs ++ cast_in l) (absorb s b o n0)).
Proof using Uq.
  clear tdec spill cr. intros [Hg Hle] (Hst & Hq & _ & _ & Hevs & _) Ev HQ Hm Hp Hr l.
  assert (i <> IMsg MStop) as Hns.
  { intros ->. destruct Hp as (q & E & _). apply (Hq MStop); [|done]. rewrite E. left. }
  pose proof (move_react _ _ _ _ _ _ _ _ _ Ev Hst Hns Hr) as [M1 M2 M3].
  assert (forall w ok, ASave w ok ∈ o -> rec_in (nd_st n) w) as Hrec by (intros; eapply rec_react; eauto).
  pose proof (popped_same _ _ _ Hp) as (Ep1 & Ep2 & Ep3 & Ep4 & Ep5 & Ep6 & Ep7 & Ep8 & Ep9 & Ep10 & Ep11 & Ep12).
  assert (s_height (nd_st n) <= s_height s) as Hmono by (destruct M1 as [?|(? & ? & ?)]; lia).
  assert (forall ev, i = IEvent ev -> ev ∈ nd_evs n) as Hpop.
  { intros ev ->. destruct Hp as (q & E & _). rewrite E. left. }
  assert (forall w ok l', ASave w ok ∈ o -> wi_step w = SCommit -> wi_lock w = Some l' -> i = IEvent (EvCommit (av_hash (wl_votes l')))) as Hcm.
  { intros w ok l' Hw Hsc El. pose proof (Hrec _ _ Hw) as Hin. pose proof (M2 _ _ Hw) as [Hlt|(_ & _ & _ & ev & -> & Es)].
    - destruct (Hin _ El) as [? _]. lia.
    - f_equal. eapply event_commit; eauto. }
  (* records of a height the votes have not reached *)
  assert (forall w ok, ASave w ok ∈ o -> rules vs -> (forall v, v ∈ vs -> v_height v < wi_height w) ->
            (forall x, i = IEvent (EvCommit x) -> x <> []) -> wsafe vs w) as Hhigh.
  { intros w ok Hw Hru Hv Hne. apply wsafe_higher; [done|done| |].
    - intros l' Hs El. by apply (rec_cert ops (nd_st n) w l' Ev HQ (Hrec _ _ Hw) El Hs).
    - intros l' Hs El. eapply Hne, Hcm; eauto. }
  (* no event: nothing but new heights is recorded *)
  assert ((forall ev, i <> IEvent ev) -> rules vs -> (forall v, v ∈ vs -> v_height v <= s_height (nd_st n)) ->
          lflow vs None l /\ cast_in l = []) as Hquiet.
  { intros Hi Hru HF. assert (Forall (fun a => vote_of a = None) o) as Hnv.
    { eapply (novote_react lc tenc e i); [|exact Hr]. intros ev Eev. by destruct (Hi ev). }
    split; [|unfold cast_in, l; by rewrite cast_quiet].
    apply lflow_quiet; [done|]. intros w ok Hw. eapply Hhigh; [done..| |intros x Ex; by destruct (Hi (EvCommit x))]. intros v Hv. apply HF in Hv.
    destruct (M2 _ _ Hw) as [?|(_ & _ & _ & ev & Eev & _)]; [lia|by destruct (Hi ev)]. }
  destruct Hm as [H0 A1 A2 A2' A3 A4 A5 A6|j t pre post A1 A2 A3 A4 A5 A6 A7 A8 A9 A10 A11 A12|c k c' A1 A2 A3 A3' A4 A5 A6].
  - destruct A5 as (B1 & B2 & B3 & B4).
    assert (forall ev, i <> IEvent ev) as Hi.
    { intros ev Eev. apply Hpop in Eev. rewrite B1 in Eev. by apply elem_of_nil in Eev. }
    destruct Hquiet as [Hf Hc]; [done|done|intros v Hv; apply A2' in Hv; lia|]. split; [done|]. intros _ b. rewrite Hc, app_nil_r.
    assert (nd_evs n0 = []) as E0.
    { destruct i; destruct Hp as (q & Eq & ->); simpl; [done| |done|done]. rewrite B1 in Eq. done. }
    apply (lm_idle _ _ H0); simpl; rewrite ?Ep3; auto.
    + lia.
    + unfold no_events. simpl. rewrite Ep8, Ep9, Ep12. done.
    + rewrite Ep7. apply Forall_app. split; [done|]. apply Forall_forall. intros t Ht%trigs_of_in.
      apply M3 in Ht as [(x & Ex & Hx)|(X1 & X2 & X3)]; [left; exists x; split; [done|lia]|]. right. split_and!; [done..|lia].
  - destruct A7 as (B1 & B2 & B3 & B4).
    assert (forall ev, i <> IEvent ev) as Hi.
    { intros ev Eev. apply Hpop in Eev. rewrite B1 in Eev. by apply elem_of_nil in Eev. }
    destruct Hquiet as [Hf Hc]; [done|by destruct A10|intros v Hv; apply (safe_height _ _ _ _ _ A10) in Hv; unfold ph in Hv; simpl in Hv; lia|].
    split; [done|]. intros _ b. rewrite Hc, app_nil_r.
    assert (nd_evs n0 = []) as E0.
    { destruct i; destruct Hp as (q & Eq & ->); simpl; [done| |done|done]. rewrite B1 in Eq. done. }
    apply (lm_pending _ _ j t pre (post ++ trigs_of o)); simpl; rewrite ?Ep3; auto.
    + by rewrite Ep7, A1, <-app_assoc.
    + apply Forall_app. split; [done|]. apply Forall_forall. intros t' Ht%trigs_of_in.
      apply M3 in Ht as [(x & Ex & Hx)|(X1 & X2 & X3)]; unfold not_wal; [by rewrite Ex|done].
    + unfold no_events. simpl. rewrite Ep8, Ep9, Ep12. done.
    + lia.
    + destruct M1 as [?|(Eh & _ & Er)]; [lia|]. rewrite Eh, Er. destruct i; try done. by destruct (Hi ev).
  - assert (ph c' = m_height (nd_smr n)) as Ec' by (destruct A3 as (k0 & -> & _); done).
    assert (ph c <= s_height (nd_st n)) as Hc.
    { apply lev_run_evs, evs_run_le in A2. destruct c as [[? ?] ?], c' as [[? ?] ?]. pos_lia. }
    assert (Forall not_wal (nd_trig n0 ++ trigs_of o)) as Htr.
    { rewrite Ep7. apply Forall_app. split; [done|]. apply Forall_forall. intros t' Ht%trigs_of_in.
      apply M3 in Ht as [(x & Ex & Hx)|(X1 & X2 & X3)]; unfold not_wal; [by rewrite Ex|done]. }
    assert (forall v, v ∈ vs -> v_height v <= ph c) as Hvc by (intros v; by apply (ready_height vs c k (nd_evs n))).
    destruct i as [m|ev|rs|m].
    1, 3, 4: (destruct Hquiet as [Hf Hct]; [done|by eapply ready_rules|intros v Hv; apply Hvc in Hv; lia|]); (split; [done|]);
      intros _ b; rewrite Hct, app_nil_r; destruct Hp as (q & Eq & ->); apply (lm_active _ _ c k c'); simpl; auto;
      [destruct M1 as [?|(Eh & Epw & Er)]; [intros; lia|rewrite Eh, Epw, Er; exact A5]|destruct A6; [by left|right; lia]].
    destruct Hp as (q & Eq & ->). rewrite Eq in A2. destruct A2 as (c1 & k1 & S1 & S2). clear Hquiet.
    assert (ple c c1) as Hcc by (eapply evs_step_le; apply S1).
    assert (ph c1 <= s_height (nd_st n)) as Hc1.
    { apply lev_run_evs, evs_run_le in S2. destruct c1 as [[? ?] ?], c' as [[? ?] ?]. pos_lia. }
    assert (forall x, IEvent (T:=T) ev = IEvent (EvCommit x) -> x <> []) as Hne.
    { intros x [= ->]. by destruct S1 as [_ [_ ?]]. }
    pose proof A1 as Hrd. rewrite Eq in Hrd. pose proof (ready_step _ _ _ _ _ _ _ Hrd S1) as Hs1.
    (* the new cursor *)
    assert (forall vs', safe vs' c1 k1 -> forall b, lmode vs' (absorb s b o (set_evs q n))) as Hnew.
    { intros vs' HF' b. destruct S1 as [S1 _]. apply (lm_active _ _ c1 k1 c'); simpl; auto; [by left|..].
      - destruct M1 as [?|(Eh & Epw & Er)]; [intros; lia|]. rewrite Eh, Epw, Er. intros Hpw. simpl. rewrite Hpw.
        destruct c as [[h0 r0] k0]. destruct ev; simpl in S1; unfold ph, pr in *; simpl in *; try done.
        + destruct S1 as [_ ->]. done.
        + destruct S1 as (-> & -> & _ & ->). simpl. auto.
        + destruct S1 as (-> & -> & _ & ->). simpl. auto.
        + subst c1. simpl. auto.
        + destruct S1 as (-> & -> & ->). simpl. auto.
      - destruct c as [[h0 r0] k0]. destruct ev; simpl in S1; try done.
        + destruct S1 as [_ ->]. simpl. left. lia.
        + destruct S1 as (-> & -> & _ & ->). simpl. left. lia.
        + destruct S1 as (-> & -> & _ & ->). simpl. left. lia.
        + subst c1. simpl in *. destruct A6; [by left|right; lia].
        + destruct S1 as (-> & -> & ->). simpl in *. destruct A6; [by left|right; lia]. }
    (* the lock in a record of the state machine's own height is the state machine's *)
    assert (forall w ok, ASave w ok ∈ o -> wi_step w <> SCommit -> wi_height w = s_height (nd_st n) -> s_height (nd_st n) = ph c1 ->
              sb_polc (into_smr_base w) = k1) as Hlk.
    { intros w ok Hw Hsc Eh Eph. pose proof (event_lock _ _ _ _ _ _ _ _ Hr Hw Eh Hsc) as El.
      assert (ev_lock ev = l_round <$> k1) as E1.
      { destruct S1 as [_ Sl]. destruct ev; simpl in Sl |- *; try (by destruct Sl); try by destruct Sl as (? & ? & ? & ?).
        - exfalso. apply M2 in Hw as [?|(_ & _ & _ & ev' & [= <-] & Es)]; [lia|]. done. }
      rewrite E1 in El. simpl. destruct (wi_lock w) as [l0|] eqn:Elk, k1 as [l1|]; simpl in El; try discriminate El; [|done].
      injection El as El. simpl. f_equal. destruct l1 as [r1 x1]. unfold wal_to_lock. simpl in El. f_equal; [done|].
      destruct (rec_cert ops (nd_st n) w l0 Ev HQ (Hrec _ _ Hw) Elk Hsc) as [_ Hg0].
      pose proof (sf_lock _ _ _ _ Hs1 _ eq_refl) as Hg1. simpl in Hg1. rewrite Eh, Eph, El in Hg0. by eapply Uq. }
    assert (forall w ok, ASave w ok ∈ o -> ph c1 < wi_height w -> wsafe vs w) as Habove.
    { intros w ok Hw Hlt. eapply Hhigh; [done|by eapply ready_rules| |done]. intros v Hv. apply Hvc in Hv.
      destruct c as [[? ?] ?], c1 as [[? ?] ?]. pos_lia. }
    (* every record *)
    assert (forall vs' w ok, ASave w ok ∈ o -> wi_height w = s_height (nd_st n) -> s_height (nd_st n) = ph c1 ->
              safe vs' c1 k1 -> wsafe vs' w) as Hown.
    { intros vs' w ok Hw Eh Eph Hsf. destruct (M2 _ _ Hw) as [?|(Hpw & _ & Er & ev' & [= <-] & Es)]; [lia|].
      split; [by destruct Hsf|]. split; [intros v Hv; apply (safe_height _ _ _ _ _ Hsf) in Hv; lia|].
      split; [|intros l' Hsc El; eapply Hne, Hcm; eauto]. intros Hsc.
      rewrite (Hlk _ _ Hw Hsc Eh Eph). simpl in Er. rewrite Hpw in Er. specialize (A5 Hpw).
      destruct S1 as [S1 _]. destruct c as [[h0 r0] s0]. unfold wal_pos. rewrite Eh, Er, Es, Eph.
      destruct ev as [h rd lr lp fr iv cf|h rd x lr|h rd x lr|x|h rd lr|]; simpl in S1; unfold ph, pr in *; simpl in *; try done.
      - destruct S1 as [? ->]. done.
      - destruct S1 as (-> & -> & ? & ->). simpl in *. rewrite (A5 ltac:(lia)). done.
      - destruct S1 as (-> & -> & ? & ->). simpl in *. rewrite (A5 ltac:(lia)). done.
      - destruct S1 as (-> & -> & ->). simpl in *. rewrite (A5 ltac:(lia)). eapply safe_more; [exact Hsf|lia]. }
    assert (forall w ok, ASave w ok ∈ o -> wsafe vs w) as Hall.
    { intros w ok Hw. destruct (M2 _ _ Hw) as [?|(Hpw & Eh & _)]; [eapply Habove; [done|lia]|].
      destruct (decide (s_height (nd_st n) = ph c1)) as [E|E]; [by eapply Hown|eapply Habove; [done|lia]]. }
    assert (Forall (fun a => vote_of a = None) o -> lflow vs None l /\ (all_fresh l -> forall b, lmode (vs ++ cast_in l) (absorb s b o (set_evs q n)))) as Hnv.
    { intros Hnv. split; [by apply lflow_quiet|]. intros _. unfold cast_in, l. rewrite cast_quiet by done. rewrite app_nil_r. by apply Hnew. }
    destruct (vote_event ev) as [[[[h rd] t] x]|] eqn:Eve.
    2: { apply Hnv. eapply (novote_react lc tenc e (IEvent ev)); [|exact Hr]. by intros ? [= <-]. }
    destruct (vote_react _ _ _ _ _ _ _ _ _ _ _ _ _ Ev Hst Eve Hr) as [Hn|(Hpw & w & a & o2 & -> & Ew & Ea & Ho2)]; [by apply Hnv|].
    assert (Forall (fun a => vote_of a = None) o2) as Ho2v by (eapply Forall_impl; [exact Ho2|]; by intros ? [? ?]).
    assert (forall vs0 cur b, lflow vs0 cur ((b,.) <$> o2)) as Hf2.
    { intros vs0 cur b. apply lflow_quiet; [done|]. intros w0 ok Hw0. rewrite Forall_forall in Ho2. apply Ho2 in Hw0 as [_ ?]. done. }
    assert (ASave w true ∈ ASave w true :: a :: o2) as Hin by left.
    assert (ev_height ev = Some h) as Eevh by (destruct ev; try discriminate Eve; simpl in *; congruence).
    assert (forall X (Y : Prop), match a with ASave w ok => X w ok | _ => Y end = Y) as Em by (intros; by destruct a).
    unfold l, VoteOrder.fresh in *. rewrite Eevh in *. clear l. rewrite !fmap_cons. 
    destruct (h =? s_height (nd_st n)) eqn:Eh.
    + apply N.eqb_eq in Eh. subst h.
      assert (c1 = vote_pos (mkVote (s_height (nd_st n)) (s_round (nd_st n)) t x) /\ rd = s_round (nd_st n)) as [Ec1 Erd].
      { specialize (A5 Hpw). destruct S1 as [S1 _]. destruct c as [[h0 r0] k0].
        destruct ev; try discriminate Eve; simpl in Eve; injection Eve as -> -> <- ->; simpl in S1;
          destruct S1 as (<- & -> & ? & ->); unfold ph, pr in *; simpl in *; specialize (A5 ltac:(congruence)); subst; done. }
      subst rd.
      pose proof (safe_vote _ _ _ _ _ _ _ _ _ _ _ S1 Eve (ready_vote _ _ _ _ _ _ Hrd Eve)) as Hsv.
      set (v := mkVote (s_height (nd_st n)) (s_round (nd_st n)) t x) in *.
      assert (s_height (nd_st n) = ph c1) as Eph by by rewrite Ec1.
      assert (wi_height w = s_height (nd_st n)) as Ewh by (unfold wal_pos, vote_pos in Ew; simpl in Ew; congruence).
      cbn [lflow]. rewrite Em, Ea. split.
      * split; [by eapply Hall|]. split; [|apply Hf2]. exists w. split; [done|]. by eapply Hown.
      * intros _ b. unfold cast_in. rewrite (cast_one _ _ _ _ _ _ Ea), cast_quiet by done. by apply Hnew.
    + cbn [lflow]. rewrite Em, Ea. split; [split; [by eapply Hall|done]|].
      intros Hf. exfalso. unfold all_fresh in Hf. rewrite (cast_one _ _ _ _ _ _ Ea) in Hf.
      by apply Forall_cons in Hf as [? _].
Qed.

Lemma handle_wal_lock ch i m m' o r (t : trigger) :
  t_type t = TWalInfo -> t_wal t = Some i -> smr_step ch t m = (m', o, r) -> m_lock m' = sb_polc i /\ lock_ok m'.
Proof.
  clear lc tenc tdec spill cr Q Uq. intros E1 E2 Hs.
  smr_go Hs; try congruence; unfold lock_ok; destruct (sb_polc i); simpl; split; try done; by intros ? [= <-].
Qed.
Lemma new_height_lock s m m' o r (t : trigger) :
  t_type t = TNewHeight s -> t_src t = SrcState -> m_height m < ss_height s -> smr_step open_chans t m = (m', o, r) ->
  m_lock m' = None.
Proof.
  clear lc tenc tdec spill cr Q Uq. intros E1 E2 E3 Hs.
  smr_go Hs; try congruence; try lia; done.
Qed.

Lemma smr_lmode vs (n : node T) t q m o r on :
  ninv n -> nostop n -> lmode vs n -> nd_trig n = t :: q -> trig_in_range t -> trusted G t -> unlock_ok G t (nd_smr n) ->
  smr_step open_chans t (nd_smr n) = (m, o, r) ->
  lmode vs (mkNode (nd_st n) true m on (nd_tm n) (nd_tm_on n) (nd_raw n) q (nd_evs n ++ to_state o)
       (nd_tevs n ++ to_timer o) (nd_fired n) (nd_queue n) (nd_resp n) (nd_verifs n) (nd_checks n) (nd_sleeps n)).
Proof.
  clear lc tenc tdec spill cr Uq. intros [Hg Hle] (_ & _ & _ & Hstop & _) Hm Eq Hr Htt Hun Hs.
  rewrite Eq in Hg. apply Forall_cons in Hg as [Ht Hg].
  assert (t_type t <> TStop) as Hts by (apply Hstop; rewrite Eq; left).
  destruct Hm as [H0 A1 A2 A2' A3 A4 A5 A6|j tw pre post A1 A2 A3 A4 A5 A6 A7 A8 A9 A10 A11 A12|c k c' A1 A2 A3 A3' A4 A5 A6].
  - rewrite Eq in A6. apply Forall_cons in A6 as [At A6]. destruct A5 as (B1 & B2 & B3 & B4). destruct At as [(x & Ex & Hx)|At].
    + unfold good_trigger in Ht. rewrite Ex in Ht. destruct Ht as [Hsrc Hxh].
      assert (m_height (nd_smr n) < ss_height x) as Hx0 by (rewrite A4; simpl; unfold INIT_HEIGHT; lia).
      destruct (new_height_inv _ _ _ _ _ _ Ex Hsrc Hx0 Hs) as (iv & cf & E1 & E2 & E3 & E4).
      pose proof (new_height_lock _ _ _ _ _ _ Ex Hsrc Hx0 Hs) as E5.
      apply (lm_active _ _ (H0, 0, 0) None (ss_height x, 0, 0)); simpl.
      * right. split_and!; [done..|]. rewrite B1, E4. simpl. eexists _, _, _, _, _, _, _, _. split; [done|]. done.
      * rewrite B1, E4, E5. simpl. eexists _, _. split; [|split; reflexivity]. split; simpl; [split; [left; lia|done]|].
        split; [done|]. left. unfold ph. simpl. split; [lia|done].
      * exists 0. rewrite E1, E2. split; [done|lia].
      * intros l. by rewrite E5.
      * eapply Forall_impl; [exact A6|]. intros t' [(y & Ey & _)|(_ & ? & _)]; unfold not_wal; [by rewrite Ey|done].
      * unfold ph. simpl. intros _ E. lia.
      * left. lia.
    + assert (m_height (nd_smr n) = 0) as Hm0 by by rewrite A4.
      destruct (other_height_noop _ _ _ _ _ _ At Hts Hm0 Hs) as [-> ->].
      apply (lm_idle _ _ H0); simpl; auto. unfold no_events; simpl. by rewrite B1, B2, B3, B4.
  - rewrite Eq in A1. destruct pre as [|t' pre]; simpl in A1; injection A1 as -> ->.
    + destruct (handle_wal_inv _ _ _ _ _ _ _ A2 A3 Hs) as (E1 & E2 & E3 & E4). destruct A7 as (B1 & B2 & B3 & B4).
      destruct (handle_wal_lock _ _ _ _ _ _ _ A2 A3 Hs) as [E5 E6].
      apply (lm_active _ _ (sb_height j, sb_round j, step_u8 (sb_step j)) (sb_polc j) (sb_height j, sb_round j, step_u8 (sb_step j))); simpl; auto.
      * by left.
      * by rewrite B1, E4, E5.
      * exists (step_u8 (sb_step j)). rewrite E1, E2, E3. done.
      * left. by destruct (sb_step j).
    + apply Forall_cons in A4 as [At A4].
      assert (m_height (nd_smr n) = 0) as Hm0 by by rewrite A6.
      destruct (other_height_noop _ _ _ _ _ _ At Hts Hm0 Hs) as [-> ->].
      eapply (lm_pending _ _ j tw pre post); simpl; eauto. destruct A7 as (B1 & B2 & B3 & B4).
      unfold no_events; simpl. by rewrite B1, B2, B3, B4.
  - rewrite Eq in A4. apply Forall_cons in A4 as [At A4].
    destruct (smr_lchain _ _ _ _ _ _ _ Hs At Hr Hts Htt Hun A3' A3) as (L & c2 & C1 & C2).
    apply (lm_active _ _ c k c2); simpl; auto; [by apply ready_app|]. apply lev_run_app. eauto.
Qed.

(** ** One move of an instance *)
Definition linv (vs : list vote) (n : node T) : Prop :=
  (nd_on n = true -> lmode vs n) /\ Forall (trusted G) (nd_trig n).
Definition unlocks_ok (log : list (nlog T)) : Prop := forall t m o r, NSmr t m o r ∈ log -> unlock_ok G t m.
Lemma timer_trusted tm ev t : timer_trigger tm ev = Ok (Some t) -> trusted G t.
Proof.
  intros Ht. unfold trusted. destruct ev; simpl in Ht; try done;
  (match type of Ht with (if ?b then _ else _) = _ => destruct b end; [done|]; injection Ht as <-; done).
Qed.
Lemma linv_step vs l (n n' : node T) ops log :
  ninv n -> nostop n -> s_votes (nd_st n) = vops ops -> (forall q, VQC q ∈ ops -> Q q) ->
  linv vs n -> nstep lc tenc cr l n = Some (n', log) -> smr_in_range log -> unlocks_ok log ->
  lflow vs None (tagged log) /\
  (all_fresh (tagged log) -> (forall t, ATrigger t ∈ actions log -> trusted G t) -> linv (vs ++ cast_in (tagged log)) n').
Proof using Uq.
  clear tdec spill. intros Hni Hno Ev HQ [Hv Htt] Hs Hrg Hun.
  assert (forall x n', tagged [x] = [] -> linv vs n' -> lflow vs None (tagged [x]) /\ 
     (all_fresh (tagged [x]) -> (forall t, ATrigger t ∈ actions [x] -> trusted G t) -> linv (vs ++ cast_in (tagged [x])) n')) as Hk.
  { intros x n0 E Hn. rewrite E. split; [done|]. intros _ _. unfold cast_in. simpl. by rewrite app_nil_r. }
  apply nstep_inv in Hs as [m -> ->|e i n0 s o r Ho Hp Hr -> ->|t q m o r ? Eq Hr -> ->|k a m Hk0 -> ->|k h r x b ok ? -> ->|ev q ? Eq -> ->|k ev Hk0 -> ->|ev q ? Eq -> ->].
  - apply Hk; [done|]. split; [|done]. intros Hon. eapply lmode_same; [..|apply Hv; exact Hon]; done.
  - destruct (state_lmode vs n ops _ _ _ _ _ _ Hni Hno Ev HQ (Hv Ho) Hp Hr) as [HF Hm].
    unfold tagged, actions. simpl. rewrite !app_nil_r. split; [exact HF|]. intros Hf Ht. split; [intros _; by apply Hm|].
    simpl. destruct (popped_same _ _ _ Hp) as (_ & _ & _ & _ & _ & _ & -> & _). apply Forall_app. split; [done|].
    apply Forall_forall. intros t Hin%trigs_of_in. auto.
  - apply Hk; [done|]. rewrite Eq in Htt. apply Forall_cons in Htt as [Ht Htt]. split; [|done]. simpl. intros Hon. rewrite Hon in *.
    pose proof Hno as (_ & _ & _ & _ & _ & _ & _ & Htm). rewrite Htm in Hr.
    pose proof (smr_lmode vs n t q m o r (match r with Ok true | Err _ => true | _ => false end) Hni Hno (Hv eq_refl) Eq) as Hm.
    rewrite Htm in Hm. rewrite Htm. apply Hm; [|done| |done]; [eapply Hrg; by left|eapply Hun; by left].
  - apply Hk; [done|]. split; [intros Hon|]; destruct (verify_msg tenc cr a m); try exact Htt; (eapply lmode_same; [..|apply Hv; exact Hon]); done.
  - apply Hk; [done|]. split; [intros Hon|]; destruct ok; try exact Htt; (eapply lmode_same; [..|apply Hv; exact Hon]); done.
  - apply Hk; [done|]. destruct (arm_same ev (set_tevs q n)) as (E1 & E2 & E3 & E4 & E5 & E6 & E7 & E8 & E9 & _). 
    split; [|rewrite E6; exact Htt]. intros Hon.
    rewrite E2 in Hon. simpl in *. eapply lmode_same; [..|apply Hv; exact Hon]; try done.
    intros (_ & B2 & _). rewrite B2 in Eq. done.
  - apply Hk; [done|]. split; [|exact Htt]. intros Hon. eapply lmode_same; [..|apply Hv; exact Hon]; try done.
    intros (_ & _ & B3 & _). rewrite B3 in Hk0. done.
  - apply Hk; [done|].
    destruct (fire_same ev (set_fired q n)) as (E1 & E2 & E3 & E4 & E5 & E6 & E7 & E8 & E9 & E10 & E11 & E12 & E13 & E14 & E15 & [E|(t & Ht & E)]);
      (split; [intros Hon; rewrite E2 in Hon; simpl in *|rewrite E]).
    + eapply lmode_same; [..|apply Hv; exact Hon]; try done. intros (_ & _ & _ & B4). rewrite B4 in Eq. done.
    + exact Htt.
    + destruct (Hv Hon) as [H0 A1 A2 A2' A3 A4 (_ & _ & _ & B4) A6|j tw pre post A1 A2 A3 A4 A5 A6 (_ & _ & _ & B4) A8 A9 A10 A11 A12|c k c' A1 A2 A3 A3' A4 A5 A6];
        [rewrite B4 in Eq; done|rewrite B4 in Eq; done|].
      apply (lm_active _ _ c k c'); rewrite ?E1, ?E3, ?E8, ?E; auto. apply Forall_app. split; [done|].
      apply Forall_singleton. by eapply timer_not_wal.
    + apply Forall_app. split; [exact Htt|]. apply Forall_singleton. by eapply timer_trusted.
Qed.

(** ** The start *)
Lemma start_lmode vs b w e s o r :
  boots tdec spill b w -> osafe vs w -> (forall x l, w = Some x -> wi_lock x = Some l -> Q (wl_votes l)) ->
  (forall t, e_trigger e t = true) ->
  on_start lc tdec spill e (b_wal b) (st_new (b_addr b) (b_height b) (b_interval b) (b_vals b)) = (s, o, r) ->
  lflow vs None ((true,.) <$> o) /\ cast_in ((true,.) <$> o) = [] /\
  forall on cfg, lmode vs (absorb s on o (mkNode s true smr_init true (timer_new (b_interval b) cfg) true [] [] [] [] [] [] [] [] [] [])).
Proof using Uq.
  clear tenc cr. intros Hb Hos HQ He Hs. unfold on_start in Hs. apply logged_inv in Hs as (r' & Hs & _).
  set (s0 := st_new _ _ _ _) in Hs.
  assert (s_power s0 = auth_contains (auth_update (b_vals b)) (b_addr b)) as Hpw by done.
  assert (s_height s0 = b_height b) as Eh0 by done. assert (s_round s0 = 0) as Er0 by done.
  assert (s_votes s0 = vops []) as Ev0 by done. clearbody s0.
  assert (forall t s, trigger_smr e t s = (s, [ATrigger t], Ok tt)) as Htr by (intros; unfold trigger_smr; by rewrite He).
  assert (forall m on cfg sx, m = smr_init -> vs = [] -> s_round sx = 0 -> 
     lmode vs (absorb sx on [] (mkNode sx true m true (timer_new (b_interval b) cfg) true [] [] [] [] [] [] [] [] [] []))) as Hzero.
  { intros m on cfg sx -> -> Ex. apply (lm_active _ _ (0, 0, 0) None (0, 0, 0)); simpl; try done.
    - left. by apply safe_nil.
    - exists 0. split; [done|lia].
    - left. lia. }
  destruct (s_power s0) eqn:Hp.
  2: { unfold start_with_wal, get, ret in Hs. rewrite Hp in Hs. simpl in Hs. simplify_eq. split; [done|]. split; [done|]. intros on cfg.
       destruct w as [w|]; simpl.
       - destruct Hb as (_ & Hw & [?|Hb]); [congruence|]. destruct Hos as (O1 & O2 & O3 & O4).
         apply (lm_idle _ _ (wi_height w)); simpl; try done. rewrite Eh0. done.
       - by apply Hzero. }
  destruct w as [w|]; simpl in Hb.
  2: { rewrite Hb in Hs. unfold start_with_wal, get at 1 in Hs. rewrite Hp in Hs. cbn [negb] in Hs. simpl in Hos.
       unfold load_wal in Hs. unfold bind at 1, lift at 1 in Hs. destruct (s_height s0 =? INIT_HEIGHT) eqn:E0; cbn [negb] in Hs.
       - unfold ret in Hs. simplify_eq. split; [done|]. split; [done|]. intros on cfg. by apply Hzero.
       - unfold wal_lost, get in Hs. apply N.eqb_neq in E0. unfold INIT_HEIGHT in E0.
         rewrite Htr in Hs. simplify_eq. split; [done|]. split; [done|]. intros on cfg.
         eapply (lm_pending _ _ _ _ [] []); simpl; try done; simpl.
         + lia.
         + by apply safe_nil. }
  destruct Hb as ((bs & Ew & Hd) & Hw0 & _). rewrite Ew in Hs. simpl in Hos. destruct Hos as (O1 & O2 & O3 & O4).
  (* waiting for a new height *)
  assert (forall s2 o2, wi_height w <= s_height s2 ->
     (forall t, ATrigger t ∈ o2 -> (exists x, t_type t = TNewHeight x /\ wi_height w < ss_height x) \/ plain (wi_height w) t) ->
     forall on cfg, lmode vs (absorb s2 on o2 (mkNode s2 true smr_init true (timer_new (b_interval b) cfg) true [] [] [] [] [] [] [] [] [] []))) as Hidle.
  { intros s2 o2 Hh Ht on cfg. apply (lm_idle _ _ (wi_height w)); simpl; try done.
    apply Forall_forall. intros t Hin%trigs_of_in. apply Ht in Hin as [?|(? & ? & E)]; [by left|]. right. split_and!; [done..|]. lia. }
  destruct (get_proposer lc (s_auth s0) (wi_height w) (wi_round w)) as [p|x|] eqn:Hg.
  2-3: unfold start_with_wal, get at 1 in Hs; rewrite Hp in Hs; cbn [negb] in Hs;
    unfold load_wal in Hs; rewrite Hd in Hs; unfold bind at 1, lift at 1 in Hs;
    unfold bind at 1, modify at 1 in Hs; unfold bind at 1, is_proposer, get at 1 in Hs;
    cbn [s_auth s_height s_round set_s_round set_s_height s_addr] in Hs;
    unfold bind at 1, lift at 1 in Hs; rewrite Hg in Hs; simplify_eq; (split; [done|]); (split; [done|]); apply Hidle;
    [simpl; lia|by intros ? ?%elem_of_nil].
  erewrite start_loaded in Hs by done. set (s1 := loaded_state w _ p s0) in Hs.
  assert (s_height s1 = wi_height w /\ s_round s1 = wi_round w /\ s_power s1 = true) as (E1 & E2 & E3).
  { unfold s1, loaded_state. by destruct (wi_lock w). }
  assert (exists ops, s_votes s1 = vops ops /\ forall q, VQC q ∈ ops -> Q q) as (ops & Ev & HQ1).
  { unfold s1, loaded_state. destruct (wi_lock w) as [l'|] eqn:El.
    - exists [VQC (wl_votes l')]. split; [simpl; by rewrite Ev0|]. intros q Hq%elem_of_list_singleton. injection Hq as ->. by eapply HQ.
    - exists []. split; [done|]. by intros ? ?%elem_of_nil. }
  clearbody s1. unfold start_tail in Hs. destruct (bool_decide (wi_step w = SCommit)) eqn:Ec.
  - apply bool_decide_eq_true in Ec. destruct (wi_lock w) as [l|] eqn:El.
    2: { unfold fail in Hs. simplify_eq. split; [done|]. split; [done|]. apply Hidle; [lia|by intros ? ?%elem_of_nil]. }
    pose proof (novote_commit _ _ _ _ _ _ _ Hs) as Hnv.
    assert (forall w' ok, ASave w' ok ∈ o -> rec_in s1 w') as Hrec by (intros w' ok Hin; eapply rec_commit; eauto).
    assert (forall w' ok l', ASave w' ok ∈ o -> wi_step w' = SCommit -> wi_lock w' = Some l' -> av_hash (wl_votes l') <> []) as Hcm.
    { intros w' ok l' Hin _ El'. rewrite (commit_lock ops _ _ _ _ _ _ _ _ _ Ev Hs Hin El'). by apply O4. }
    apply commit_move in Hs as [M1 M2 M3]; [|done]. split; [|split].
    + apply lflow_quiet; [done|]. intros w' ok Hin. apply M2 in Hin as Hin'.
      destruct Hin' as [Hlt|(_ & E4 & E5 & ev & [= <-] & E6)].
      * apply wsafe_higher; [done|intros v Hv; apply O2 in Hv; lia| |eauto]. intros l' Hsc El'.
        by apply (rec_cert ops s1 w' l' Ev HQ1 (Hrec _ _ Hin) El' Hsc).
      * split; [done|]. split; [intros v Hv; apply O2 in Hv; lia|]. split; [rewrite E6; done|eauto].
    + unfold cast_in. by rewrite cast_quiet.
    + apply Hidle; [destruct M1 as [?|(? & _)]; lia|]. rewrite <-E1. exact M3.
  - apply bool_decide_eq_false in Ec. specialize (O3 Ec). destruct (bool_decide (wi_step w = SBrake)) eqn:Eb.
    + apply bool_decide_eq_true in Eb.
      assert (forall s2 o2 r2, handle_brake e (wi_round w) (wl_round <$> wi_lock w) s1 = (s2, o2, r2) ->
         lflow vs None ((true,.) <$> o2) /\ votes_in ((true,.) <$> o2) = [] /\ s_height s2 = wi_height w /\ s_round s2 = wi_round w /\
         forall t, ATrigger t ∈ o2 -> plain (wi_height w) t) as Hbr.
      { intros s2 o2 r2 Hx. pose proof (novote_brake _ _ _ _ _ _ _ Hx) as Hnv.
        assert (forall w' ok, ASave w' ok ∈ o2 -> rec_in s1 w' /\ wl_round <$> wi_lock w' = wl_round <$> wi_lock w) as Hrec.
        { intros w' ok Hin. split; [by eapply rec_brake|by eapply brake_lock]. }
        apply hold_brake in Hx as (A1 & A2 & A3 & A4 & A5).
        split_and!; [|by apply cast_quiet|congruence..|rewrite <-E1; exact A5]. apply lflow_quiet; [done|]. intros w' ok Hin.
        destruct (Hrec _ _ Hin) as [Hr1 Hr2]. apply A4 in Hin as (E4 & E5 & E6).
        injection E6 as E6. split; [done|]. split; [intros v Hv; apply O2 in Hv; lia|]. split; [|intros l' Hsc; congruence]. intros Hsc.
        assert (wal_pos w' = wal_pos w) as -> by (unfold wal_pos; rewrite E4, E5, <-E6, E1, E2, Eb; done).
        assert (sb_polc (into_smr_base w') = sb_polc (into_smr_base w)) as ->; [|done]. simpl.
        destruct (wi_lock w') as [l'|] eqn:El', (wi_lock w) as [l|] eqn:El; try discriminate Hr2; [|done]. injection Hr2 as Hr2.
        simpl. unfold wal_to_lock. rewrite Hr2. do 2 f_equal.
        destruct (rec_cert ops s1 w' l' Ev HQ1 Hr1 El' Hsc) as [_ Hg'].
        pose proof (sf_lock _ _ _ _ O3 (wal_to_lock l)) as Hg0. simpl in Hg0. rewrite El in Hg0. specialize (Hg0 eq_refl).
        rewrite E4, E1, Hr2 in Hg'. unfold wal_pos, ph in Hg0. simpl in Hg0. by eapply Uq. }
      apply bind_inv in Hs as [(a & s2 & o1 & o2 & Hx & Hs & ->)|[(x & Hx & _)|(Hx & _)]].
      * apply Hbr in Hx as (F1 & F0 & F2 & F3 & F4). unfold get in Hs. rewrite Htr in Hs. simplify_eq.
        rewrite fmap_app. split; [|split].
        -- apply lflow_app; done.
        -- unfold cast_in. rewrite votes_in_app, F0. done.
        -- intros on cfg.
           eapply (lm_pending _ _ (into_smr_base w) (mkTrigger TWalInfo SrcState [] None (s_round s) (s_height s)
            (Some (into_smr_base w))) (trigs_of o1) []); simpl; try done; simpl.
           ++ unfold trigs_of. by rewrite omap_app.
           ++ apply Forall_forall. intros t Hin%trigs_of_in. apply F4 in Hin as (? & ? & E). split_and!; [done..|lia].
           ++ lia.
      * apply Hbr in Hx as (F1 & F0 & F2 & F3 & F4). unfold cast_in. rewrite F0. split; [done|]. split; [done|]. apply Hidle; [lia|]. intros t Hin. right. auto.
      * apply Hbr in Hx as (F1 & F0 & F2 & F3 & F4). unfold cast_in. rewrite F0. split; [done|]. split; [done|]. apply Hidle; [lia|]. intros t Hin. right. auto.
    + unfold bind, ret, get in Hs. rewrite Htr in Hs. simplify_eq. split; [done|]. split; [done|]. intros on cfg.
      eapply (lm_pending _ _ (into_smr_base w) _ [] []); simpl; try done; simpl.
      lia.
Qed.

(** ** The whole life of one instance *)
(** What is known of the certificates: those the instance held when it had done [log]. *)
Definition known_ok (b : boot T) (log : list (nlog T)) : Prop :=
  forall q, qc_known tdec spill (boot_at b) (inputs log) (actions log) q -> Q q.
Lemma known_triggers b cfg log n :
  noderun b cfg log n -> known_ok b log -> forall t, ATrigger t ∈ actions log -> trusted G t.
Proof.
  clear Uq. intros Hr Hk t Hin Ht _. apply noderun_run in Hr as Hrun.
  destruct (C38_only_checked_blocks_reach_the_state_machine _ _ _ _ _ _ _ _ _ _ Hrun Hin (or_introl Ht)) as [(q & Hq & E1 & E2 & E3 & E4) _].
  exists q. split; [by apply Hk|]. rewrite Ht in E1. split_and!; try done. by destruct (av_type q).
Qed.
Lemma noderun_lflow b cfg log n w vs :
  noderun b cfg log n -> boots tdec spill b w -> osafe vs w ->
  (forall x l, w = Some x -> wi_lock x = Some l -> Q (wl_votes l)) ->
  smr_in_range log -> unlocks_ok log ->
  (forall log0 x, log = log0 ++ [x] -> known_ok b log0 /\ all_fresh (tagged log0)) ->
  lflow vs None (tagged log) /\
  (known_ok b log -> all_fresh (tagged log) -> linv (vs ++ cast_in (tagged log)) n).
Proof using Uq.
  intros Hr Hb Hos HQ. induction Hr as [n log Hs|log n l n' log' Hr IH Hs]; intros Hrg Hun Hpre.
  - unfold nstart in Hs. destruct (on_start _ _ _ _ _ _) as [[s o] r] eqn:E. injection Hs as <- <-.
    assert (noderun b cfg [NStart o r] (absorb s (goes_on r) o
        (mkNode s true smr_init true (timer_new (b_interval b) cfg) true [] [] [] [] [] [] [] [] [] []))) as Hr0.
    { constructor. unfold nstart. by rewrite E. }
    apply (start_lmode vs b w) in E as (E1 & E2 & E3); [|done..].
    unfold tagged. simpl. rewrite app_nil_r. split; [done|]. intros Hk Hf. rewrite E2, app_nil_r.
    split; [intros _; apply E3|]. simpl. apply Forall_forall. intros t Hin%trigs_of_in.
    eapply known_triggers; [exact Hr0|exact Hk|]. unfold actions. simpl. by rewrite app_nil_r.
  - pose proof Hs as Hsh. apply nstep_inv in Hsh. assert (exists x, log' = [x]) as [x ->] by (destruct Hsh; subst; eauto). clear Hsh.
    destruct (Hpre log x eq_refl) as [Hk Hf].
    destruct IH as [HF Hv]; [intros t m o r Hin; eapply Hrg; apply elem_of_app; by left|intros t m o r Hin; eapply Hun; apply elem_of_app; by left| |].
    { intros log0 x0 ->. rewrite tagged_app, all_fresh_app in Hf. split; [|by destruct Hf].
      intros q Hq. apply Hk. rewrite inputs_app, actions_app. apply (vsrc_run_app tdec spill (boot_at b) _ _ _ _ (VQC q)). exact Hq. }
    specialize (Hv Hk Hf).
    pose proof (noderun_run _ _ _ _ _ _ _ _ _ Hr) as Hrun. apply run_run_inv in Hrun. destruct Hrun as [(ops & Ev & Fv) _ _ _ _ _].
    assert (forall q, VQC q ∈ ops -> Q q) as HQ1.
    { intros q Hq. apply Hk. rewrite Forall_forall in Fv. by apply Fv in Hq. }
    apply noderun_ninv in Hr as Hni. apply noderun_nostop in Hr as Hno.
    destruct (linv_step _ l n n' ops [x] Hni Hno Ev HQ1 Hv Hs) as [HF' Hv'].
    { intros t m o r Hin. eapply Hrg. apply elem_of_app. by right. }
    { intros t m o r Hin. eapply Hun. apply elem_of_app. by right. }
    assert (noderun b cfg (log ++ [x]) n') as Hr' by by econstructor.
    rewrite tagged_app. split.
    + apply lflow_app; [done|]. intros _ cur'. by apply lflow_none.
    + intros Hk' Hf'. apply all_fresh_app in Hf' as [_ Hf']. rewrite cast_app, app_assoc. apply Hv'; [done|].
      intros t Hin. eapply known_triggers; [exact Hr'|exact Hk'|]. rewrite actions_app. apply elem_of_app. by right.
Qed.
End N.
