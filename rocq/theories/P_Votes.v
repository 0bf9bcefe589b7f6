(** * P_Votes: an instance does not vote twice (C35). *)
From Verif Require Export VoteOrder.
Set Default Proof Using "Type".
Local Ltac pos_lia := unfold ple, plt, wal_pos, vote_pos, ph, pr in *; simpl in *; lia.

(** ** Specification *)
Section Spec.
Context {T : Type} `{EqDecision T}.
Context (lc : lcfg) (tenc : T -> bytes) (tdec : bytes -> option T) (spill : bool) (cr : crypto).

(** The record that is stored after [o], [w] being stored before: the last one written. An
    attempt that reported an error may have replaced the record or not. *)
Inductive stored : option (walinfo T) -> list (action T) -> option (walinfo T) -> Prop :=
| stored_nil w : stored w [] w
| stored_saved w x ok o w' : stored (Some x) o w' -> stored w (ASave x ok :: o) w'
| stored_failed w x o w' : stored w o w' -> stored w (ASave x false :: o) w'
| stored_other w a o w' : is_save a = false -> stored w o w' -> stored w (a :: o) w'.

(** The votes among actions, with the mark whether the event they answer was of the height at
    which the instance then was. *)
Definition votes_in (l : list (bool * action T)) : list (bool * vote) :=
  omap (fun x => (x.1,.) <$> vote_of x.2) l.

(** [life w vs]: a node can have lived, through any number of starts and crashes at any point
    (in particular between any two of its actions), so that its log now holds [w] and the votes
    it has signed are [vs], in this order. *)
Inductive life : option (walinfo T) -> list (bool * vote) -> Prop :=
| life_new : life None []
| life_more w vs b cfg log n k w' :
    life w vs -> boots tdec spill b w -> noderun lc tenc tdec spill cr b cfg log n -> smr_in_range log ->
    stored w (take k (tagged log).*2) w' ->
    life w' (vs ++ votes_in (take k (tagged log))).
End Spec.

Section P.
Context {T : Type} `{EqDecision T}.
Context (lc : lcfg) (tenc : T -> bytes) (tdec : bytes -> option T) (spill : bool) (cr : crypto).
Local Notation life := (life lc tenc tdec spill cr).

Lemma stored_app (w : option (walinfo T)) o1 o2 w' : stored w (o1 ++ o2) w' -> exists w1, stored w o1 w1 /\ stored w1 o2 w'.
Proof.
  revert w. induction o1 as [|a o1 IH]; intros w H; simpl in H; [exists w; split; [constructor|done]|].
  inversion H; subst.
  - edestruct IH as (w1 & ? & ?); [eassumption|]. exists w1. split; [by constructor|done].
  - edestruct IH as (w1 & ? & ?); [eassumption|]. exists w1. split; [by apply stored_failed|done].
  - edestruct IH as (w1 & ? & ?); [eassumption|]. exists w1. split; [by apply stored_other|done].
Qed.
Lemma stored_quiet (w : option (walinfo T)) o w' : Forall (fun a => is_save a = false) o -> stored w o w' -> w' = w.
Proof.
  intros Hf. revert w. induction Hf as [|a o Ha Hf IH]; intros w H; inversion H; subst; try done; auto.
Qed.
Lemma stored_one (w : option (walinfo T)) a w' : stored w [a] w' -> (exists x ok, a = ASave x ok /\ w' = Some x) \/ w' = w.
Proof.
  intros H. inversion H as [|? x ok o ? H1|? x o ? H1|? ? ? ? ? H1]; subst; inversion H1; subst; eauto.
Qed.
Lemma last_saved_stored (w : option (walinfo T)) o w' x : last_saved o x -> stored w o w' -> w' = Some x.
Proof.
  intros (p & q & -> & Hq) H. apply stored_app in H as (w1 & _ & H).
  inversion H; subst; [|done]. by eapply stored_quiet.
Qed.
Lemma votes_in_app (l1 l2 : list (bool * action T)) : votes_in (l1 ++ l2) = votes_in l1 ++ votes_in l2.
Proof. apply omap_app. Qed.

(** A prefix: the floor is what the votes and the stored record have in common. *)
Lemma flow_prefix (l : list (bool * action T)) F0 F w w' :
  flow F0 l F -> covered l.*2 -> stored w l.*2 w' -> F0 = floor w ->
  ple F (floor w').
Proof.
  revert F w'. induction l as [|[b a] l IH] using rev_ind; intros F w' Hf Hc Hs E0.
  - simpl in *. subst. inversion Hs; subst. apply ple_refl.
  - apply flow_app in Hf as (F1 & Hf & Hx). rewrite fmap_app in Hc, Hs. simpl in Hc, Hs.
    apply stored_app in Hs as (w1 & Hs & Hs').
    assert (ple F1 (floor w1)) as H1.
    { apply IH; try done. intros o1 x o2 y E. eapply (Hc o1 x (o2 ++ [a]) y). by rewrite E, <-app_assoc. }
    simpl in Hx. destruct Hx as [Hw Hx]. destruct (vote_of a) as [v|] eqn:Ea.
    + assert (leaves a = Some (v_height v, v_round v, match v_type v with Prevote => SPrevote | Precommit => SPrecommit end)) as Hl.
      { clear -Ea. destruct a as [|m|to m|v0| | | | | | | | |]; try discriminate Ea; try (destruct m; try discriminate Ea); injection Ea as <-; reflexivity. }
      destruct (Hc l.*2 a [] _ eq_refl Hl) as (x & Hx' & Ep).
      pose proof (last_saved_stored _ _ _ _ Hx' Hs) as ->.
      assert (w' = Some x) as ->. { eapply stored_quiet; [|exact Hs']. apply Forall_singleton. by destruct a. }
      assert (wal_pos x = vote_pos v) as Exv.
      { unfold wal_pos, vote_pos. injection Ep as -> -> <-. by destruct (v_type v). }
      destruct b; [destruct Hx as [_ ->]|subst F]; simpl; [rewrite Exv; apply ple_refl|done].
    + subst F. apply stored_one in Hs' as [(x & ok & -> & ->)| ->]; [by eapply Hw|done].
Qed.
(** Votes for events of their own height are in order. *)
Lemma flow_votes (l : list (bool * action T)) F0 F i v :
  flow F0 l F -> votes_in l !! i = Some (true, v) ->
  plt F0 (vote_pos v) /\ ple (vote_pos v) F /\
  forall j v', votes_in l !! j = Some (true, v') -> (i < j)%nat -> plt (vote_pos v) (vote_pos v').
Proof.
  revert F0 i v. induction l as [|[b a] l IH]; intros F0 i v Hf Hi; [done|].
  simpl in Hf. destruct Hf as [_ Hf]. unfold votes_in in *. simpl in Hi |- *. destruct (vote_of a) as [v0|]; simpl in *; [|by eapply IH].
  destruct i as [|i]; simpl in Hi.
  - injection Hi as -> ->. destruct Hf as [Hlt Hf]. split_and!; [done|by eapply flow_le|].
    intros [|j] v' Hj Hlt'; [lia|]. simpl in Hj. eapply IH in Hf as (? & _ & _); [|exact Hj]. done.
  - destruct b.
    + destruct Hf as [Hlt Hf]. eapply IH in Hf as (H1 & H2 & H3); [|done]. split_and!; [|done|].
      * eapply plt_ple_trans; [exact Hlt|]. by apply plt_ple.
      * intros [|j] v' Hj Hlt'; [lia|]. simpl in Hj. eapply H3; [done|lia].
    + eapply IH in Hf as (H1 & H2 & H3); [|done]. split_and!; [done..|].
      intros [|j] v' Hj Hlt'; [lia|]. simpl in Hj. eapply H3; [done|lia].
Qed.

Lemma life_order w vs :
  life w vs ->
  (forall i v, vs !! i = Some (true, v) -> ple (vote_pos v) (floor w) /\
     forall j v', vs !! j = Some (true, v') -> (i < j)%nat -> plt (vote_pos v) (vote_pos v')).
Proof.
  induction 1 as [|w vs b cfg log n k w' Hl IH Hb Hr Hrg Hs]; [done|].
  destruct (noderun_flow _ _ _ _ _ _ _ _ _ _ Hr Hb Hrg) as (F & Hf & _).
  rewrite <-(take_drop k (tagged log)) in Hf. apply flow_app in Hf as (F1 & Hf & _).
  set (l := take k (tagged log)) in *.
  assert (covered l.*2) as Hc.
  { intros o1 a o2 [[h r] st] E Hlv. apply noderun_run in Hr.
    assert (actions log = o1 ++ a :: (o2 ++ (drop k (tagged log)).*2)) as E'.
    { rewrite <-tagged_actions. rewrite <-(take_drop k (tagged log)) at 1. rewrite fmap_app. fold l. rewrite E, <-app_assoc. reflexivity. }
    destruct (C32_nothing_leaves_unrecorded _ _ _ _ _ _ _ _ _ _ _ Hr _ _ _ _ _ _ E' Hlv) as (x & ? & <- & <- & <-). eauto. }
  assert (stored w l.*2 w') as Hs' by (unfold l; by rewrite fmap_take).
  pose proof (flow_prefix _ _ _ _ _ Hf Hc Hs' eq_refl) as Hfl. pose proof (flow_le _ _ _ Hf) as Hle.
  intros i v Hi. apply lookup_app_Some in Hi as [Hi|[Hi0 Hi]].
  - apply IH in Hi as Hiv. destruct Hiv as [Hv Ho]. split.
    + eapply ple_trans; [exact Hv|]. by eapply ple_trans.
    + intros j v' Hj Hlt. apply lookup_app_Some in Hj as [Hj|[Hj0 Hj]]; [eauto|].
      eapply flow_votes in Hf as (Hp & _ & _); [|exact Hj]. by eapply ple_plt_trans.
  - eapply flow_votes in Hf as (Hp & Hq & Ho); [|exact Hi]. split; [by eapply ple_trans|].
    intros j v' Hj Hlt. apply lookup_app_Some in Hj as [Hj|[Hj0 Hj]].
    + apply lookup_lt_Some in Hj. lia.
    + eapply Ho; [done|lia].
Qed.
End P.

(** ** C35: one vote of a type per height and round. *)
(** Whatever the scheduling of its tasks, whatever it receives, and wherever it crashes, a node
    never signs two votes of the same type for one height and round, among the votes that answer
    an event of the height at which the node is. Missing for the full claim: votes that answer
    an event of an earlier height (see the refutation below) and rounds at 2^64 - 1, where the
    state machine's round number wraps (C21). *)
Theorem C35_one_vote_per_round_partial :
  forall (T : Type) (D : EqDecision T) lc tenc tdec spill cr w vs,
    life (T:=T) lc tenc tdec spill cr w vs ->
    forall i j v v',
      vs !! i = Some (true, v) -> vs !! j = Some (true, v') ->
      v_height v = v_height v' -> v_round v = v_round v' -> v_type v = v_type v' -> i = j.
Proof.
  intros T D lc tenc tdec spill cr w vs Hl i j v v' Hi Hj E1 E2 E3.
  assert (vote_pos v = vote_pos v') as E by (unfold vote_pos; by rewrite E1, E2, E3).
  destruct (lt_eq_lt_dec i j) as [[H|H]|H]; [exfalso|done|exfalso].
  - apply (plt_irrefl (vote_pos v)). rewrite E at 2. by eapply (life_order _ _ _ _ _ _ _ Hl i).
  - apply (plt_irrefl (vote_pos v)). rewrite E at 1. by eapply (life_order _ _ _ _ _ _ _ Hl j).
Qed.
(** So a node that was at their height whenever it treated a vote event never contradicts itself. *)
Theorem C35_no_contradiction_partial :
  forall (T : Type) (D : EqDecision T) lc tenc tdec spill cr w vs,
    life (T:=T) lc tenc tdec spill cr w vs -> (forall f v, (f, v) ∈ vs -> f = true) ->
    forall f f' v v',
      (f, v) ∈ vs -> (f', v') ∈ vs ->
      v_height v = v_height v' -> v_round v = v_round v' -> v_type v = v_type v' -> v = v'.
Proof.
  intros T D lc tenc tdec spill cr w vs Hl Hf f f' v v' Hv Hv' E1 E2 E3.
  rewrite (Hf _ _ Hv) in Hv. rewrite (Hf _ _ Hv') in Hv'.
  apply elem_of_list_lookup in Hv as [i Hi], Hv' as [j Hj].
  assert (i = j) as -> by by eapply C35_one_vote_per_round_partial. congruence.
Qed.
(** What makes it work: the stored record is never behind such a vote. *)
Theorem C35_record_not_behind_votes :
  forall (T : Type) (D : EqDecision T) lc tenc tdec spill cr w vs v,
    life (T:=T) lc tenc tdec spill cr w vs -> (true, v) ∈ vs ->
    exists x, w = Some x /\
      (v_height v < wi_height x \/
       v_height v = wi_height x /\
        (v_round v < wi_round x \/
         v_round v = wi_round x /\ match v_type v with Prevote => 1 | Precommit => 2 end <= step_u8 (wi_step x))).
Proof.
  intros T D lc tenc tdec spill cr w vs v Hl Hv. apply elem_of_list_lookup in Hv as [i Hi].
  destruct (life_order _ _ _ _ _ _ _ Hl _ _ Hi) as [Hp _].
  destruct w as [x|]; simpl in Hp.
  - exists x. split; [done|]. pos_lia.
  - exfalso. unfold vote_pos in Hp. destruct (v_type v); pos_lia.
Qed.

(** ** The refutation *)
(** A has a prevote event for height 1 waiting when it is told that height 1 is decided; it
    signs that prevote for height 2, and then prevotes C's proposal of height 2 too. *)
Definition stale_schedule : list (label bytes) :=
  let e := nenv nA true in
  status_through nA (nstatus 1) ++ [LSmr; LEvent e] ++
  through nA (MProposal (nprop nB 1 0 blk None)) ++ [LSmr] ++
  status_through nA (nstatus 2) ++ [LEvent e; LSmr; LEvent e] ++
  through nA (MProposal (nprop nC 2 0 (nblock 2) None)) ++ [LSmr; LEvent e].
Definition votes_sent (log : list (nlog bytes)) : list (bytes * svote) :=
  omap (fun x => match x with (to, MVote v) => Some (to, v) | _ => None end) (sent_to log).
Lemma votes_sent_in log to v : (to, v) ∈ votes_sent log -> ATransmit to (MVote v) ∈ actions log.
Proof.
  unfold votes_sent, sent_to. rewrite elem_of_list_omap. intros ([x m] & Hx & E).
  apply elem_of_list_omap in Hx as (a & Ha & Ea). destruct m; try discriminate E. injection E as -> ->.
  destruct a; try discriminate Ea. injection Ea as -> ->. done.
Qed.
Lemma stale_votes : votes_sent (ndlog nA stale_schedule) =
  [(nB, nvote nA 2 0 Prevote hsh); (nC, nvote nA 2 0 Prevote (nhash (nblock 2)))].
Proof. vm_compute. reflexivity. Qed.
Theorem C35_two_votes_in_one_round_refuted :
  exists log n v v',
    ndrun nA log n /\
    (exists x, ATransmit x (MVote v) ∈ actions log) /\ (exists x, ATransmit x (MVote v') ∈ actions log) /\
    sv_voter v = nA /\ sv_voter v' = nA /\
    sv_vote v = mkVote 2 0 Prevote hsh /\ sv_vote v' = mkVote 2 0 Prevote (nhash (nblock 2)) /\
    hsh <> nhash (nblock 2).
Proof.
  exists (ndlog nA stale_schedule), (ndnode nA stale_schedule),
    (nvote nA 2 0 Prevote hsh), (nvote nA 2 0 Prevote (nhash (nblock 2))).
  split; [apply ndok_run; vm_compute; reflexivity|].
  split; [exists nB; apply votes_sent_in; rewrite stale_votes; left|].
  split; [exists nC; apply votes_sent_in; rewrite stale_votes; right; left|].
  done.
Qed.

(** ** A life that meets the hypotheses: A prevotes at height 1, crashes right after its prevote
    was sent, starts again from its log, gets the prevote certificate and precommits. *)
Definition life1 : list (label bytes) :=
  let e := nenv nA true in
  status_through nA (nstatus 1) ++ [LSmr; LEvent e] ++
  through nA (MProposal (nprop nB 1 0 blk None)) ++ [LSmr; LEvent e].
Definition life1_log : list (nlog bytes) := ndlog nA life1.
Definition after_saves {T} (w : option (walinfo T)) (o : list (action T)) : option (walinfo T) :=
  fold_left (fun w a => match a with ASave x true => Some x | _ => w end) o w.
Lemma stored_after {T} (w : option (walinfo T)) o : stored w o (after_saves w o).
Proof.
  revert w. induction o as [|a o IH]; intros w; simpl; [constructor|].
  destruct a as [x ok|m|to m|t|a m|m|h|h r x b|h c|h r y|e|v|sc]; try (apply stored_other; [done|apply IH]).
  destruct ok; [apply stored_saved|apply stored_failed]; apply IH.
Qed.
Definition in_rangeb (log : list (nlog bytes)) : bool :=
  forallb (fun x => match x with NSmr t _ _ _ => t_round t <? u64_max | _ => true end) log.
Lemma in_rangeb_ok log : in_rangeb log = true -> smr_in_range log.
Proof.
  intros H t m o r Hin. unfold in_rangeb in H. rewrite forallb_forall in H.
  apply elem_of_list_In, H in Hin. by apply N.ltb_lt.
Qed.
Definition prevote_record : walinfo bytes := mkWalInfo 1 0 SPrevote None (UFPrecommit mock_init_qc).
Definition life2 : list (label bytes) :=
  let e := nenv nA true in
  [LSmr] ++ through nA (MProposal (nprop nB 1 0 blk None)) ++ [LSmr; LCheck 0 true; LResp e] ++
  through nA (MAgg pvqc) ++ [LSmr; LEvent e].
Definition life2_boot : boot bytes := nboot nA (Some (enc (walinfo_rlp ntenc prevote_record))).
Definition bexec (b : boot bytes) (ls : list (label bytes)) : option (node bytes * list (nlog bytes)) :=
  run_labels nlc ntenc (ncr nA) ls (nstart nlc ntdec true b None).
Definition blog b ls : list (nlog bytes) := match bexec b ls with Some (_, l) => l | None => [] end.
Definition bnode b ls : node bytes := match bexec b ls with Some (n, _) => n | None => (nstart nlc ntdec true b None).1 end.
Definition bok b ls : bool := match bexec b ls with Some _ => true | None => false end.
Lemma bok_run b ls : bok b ls = true -> noderun nlc ntenc ntdec true (ncr nA) b None (blog b ls) (bnode b ls).
Proof.
  unfold bok, blog, bnode. destruct (bexec b ls) as [[n l]|] eqn:E; [|done]. intros _. by eapply run_labels_run.
Qed.
Definition life2_log : list (nlog bytes) := blog life2_boot life2.
Definition life2_node : node bytes := bnode life2_boot life2.
Lemma life2_ok : bok life2_boot life2 = true.
Proof. vm_compute. reflexivity. Qed.
Lemma life2_runs : noderun nlc ntenc ntdec true (ncr nA) life2_boot None life2_log life2_node.
Proof. exact (bok_run _ _ life2_ok). Qed.
Definition precommit_record : walinfo bytes :=
  mkWalInfo 1 0 SPrecommit (Some (mkWalLock 0 pvqc blk)) (UFPrecommit mock_init_qc).
Lemma life1_votes : votes_in (take 9 (tagged life1_log)) = [(true, mkVote 1 0 Prevote hsh)].
Proof. vm_compute. reflexivity. Qed.
Lemma life2_votes : votes_in (take 100 (tagged life2_log)) = [(true, mkVote 1 0 Precommit hsh)].
Proof. vm_compute. reflexivity. Qed.
Lemma life1_stored : after_saves None (take 9 (tagged life1_log).*2) = Some prevote_record.
Proof. vm_compute. reflexivity. Qed.
Lemma life2_stored : after_saves (Some prevote_record) (take 100 (tagged life2_log).*2) = Some precommit_record.
Proof. vm_compute. reflexivity. Qed.
Lemma life1_in_range : in_rangeb life1_log = true.
Proof. vm_compute. reflexivity. Qed.
Lemma life2_in_range : in_rangeb life2_log = true.
Proof. vm_compute. reflexivity. Qed.
Lemma record_read : dec_walinfo ntdec true (enc (walinfo_rlp ntenc prevote_record)) = Ok prevote_record.
Proof. vm_compute. reflexivity. Qed.
Lemma life1_runs : ndok nA life1 = true.
Proof. vm_compute. reflexivity. Qed.
Example two_starts :
  life nlc ntenc ntdec true (ncr nA) (Some precommit_record)
    [(true, mkVote 1 0 Prevote hsh); (true, mkVote 1 0 Precommit hsh)].
Proof.
  rewrite <-life2_stored. change [(true, mkVote 1 0 Prevote hsh); (true, mkVote 1 0 Precommit hsh)]
    with ([(true, mkVote 1 0 Prevote hsh)] ++ [(true, mkVote 1 0 Precommit hsh)]).
  rewrite <-life2_votes.
  eapply (life_more _ _ _ _ _ (Some prevote_record) _ life2_boot None life2_log life2_node 100).
  - rewrite <-life1_stored. change [(true, mkVote 1 0 Prevote hsh)] with ([] ++ [(true, mkVote 1 0 Prevote hsh)]).
    rewrite <-life1_votes.
    eapply (life_more _ _ _ _ _ None [] (nboot nA None) None life1_log (ndnode nA life1) 9).
    + apply life_new.
    + reflexivity.
    + apply ndok_run, life1_runs.
    + apply in_rangeb_ok, life1_in_range.
    + apply stored_after.
  - split; [|split; [reflexivity|left; vm_compute; reflexivity]].
    eexists. split; [reflexivity|]. apply record_read.
  - apply life2_runs.
  - apply in_rangeb_ok, life2_in_range.
  - apply stored_after.
Qed.
