(** * P_EarlyEx: runs that meet the hypotheses of P_Early (C56, C61). *)
From Verif Require Export P_Early P_QuorumEx P_ChokeEx.
Set Default Proof Using "Type".

(** What happens in one step of a node. *)
Definition step_log (me : bytes) (l : label bytes) (n : node bytes) : list (nlog bytes) :=
  match nstep nlc ntenc (ncr me) l n with Some (_, g) => g | None => [] end.
Definition step_node (me : bytes) (l : label bytes) (n : node bytes) : node bytes :=
  match nstep nlc ntenc (ncr me) l n with Some (n', _) => n' | None => n end.
Lemma step_run me l n log : ndrun me log n -> step_log me l n <> [] -> ndrun me (log ++ step_log me l n) (step_node me l n).
Proof.
  unfold ndrun, step_log, step_node. intros Hr Hne. destruct (nstep nlc ntenc (ncr me) l n) as [[n' g]|] eqn:E; [|done]. by eapply noderun_step.
Qed.

(** ** Messages for the next height *)
(** At height 1 A gets a proposal by C, a vote by B and a certificate for height 2; then a status
    tells it to enter height 2. A message for a later height is not verified at first. *)
Definition queued (me : bytes) (m : omsg bytes) : list (label bytes) := let e := nenv me true in [LSend m; LRaw e; LMsg e].
Definition for2 : list (omsg bytes) := [MProposal (nprop nC 2 0 blk None); MVote (nvote nB 2 0 Prevote hsh); MAgg (nqc xe0 [nA; nB; nC] nC 2 1 Prevote hsh)].
Definition before_2 : list (label bytes) :=
  let e := nenv nA true in
  status_through nA (nstatus 1) ++ [LSmr; LEvent e; LArm] ++ concat (queued nA <$> for2) ++ [LSend (MStatus (nstatus 2)); LRaw e].
Definition same_msg (a b : omsg bytes) : bool :=
  match a, b with
  | MProposal x, MProposal y => bool_decide (x = y)
  | MVote x, MVote y => bool_decide (x = y)
  | MAgg x, MAgg y => bool_decide (x = y)
  | _, _ => false
  end.
Lemma same_msg_ok a b : same_msg a b = true -> a = b.
Proof. destruct a, b; try done; simpl; by intros ->%bool_decide_eq_true. Qed.
Definition earlyb (m : omsg bytes) (s : st bytes) : bool :=
  s_power s &&
  match m with
  | MProposal sp =>
      let p := sp_prop sp in
      (s_height s <? p_height p) && (p_height p <=? s_height s + FUTURE_HEIGHT_GAP) && (p_round p <=? FUTURE_ROUND_GAP) &&
      match get_proposer nlc (s_auth s) (p_height p) (p_round p) with Ok a => bool_decide (a = p_proposer p) | _ => false end &&
      auth_contains (s_auth s) (p_proposer p)
  | MVote v =>
      (s_height s <? v_height (sv_vote v)) && (v_height (sv_vote v) <=? s_height s + FUTURE_HEIGHT_GAP) && (v_round (sv_vote v) <=? FUTURE_ROUND_GAP) &&
      auth_contains (s_auth s) (sv_voter v)
  | MAgg q => (s_height s <? av_height q) && (av_height q <? s_height s + FUTURE_HEIGHT_GAP) && (av_round q <? FUTURE_ROUND_GAP)
  | _ => false
  end.
Lemma earlyb_ok m s : earlyb m s = true -> ahead nlc m s.
Proof.
  unfold earlyb, ahead. intros [H1 H2]%andb_true_iff. split; [done|].
  destruct m; try done; rewrite ?andb_true_iff, ?N.ltb_lt, ?N.leb_le in H2.
  - destruct H2 as ((((A & B) & C) & D) & E). destruct (get_proposer _ _ _ _) as [a| |]; try done. apply bool_decide_eq_true in D as ->. done.
  - by destruct H2 as (((A & B) & C) & D).
  - by destruct H2 as ((A & B) & C).
Qed.
Definition got_early (log : list (nlog bytes)) (m : omsg bytes) : bool :=
  existsb (fun g => match g with NState _ (IMsg m') s _ _ => same_msg m' m && earlyb m s && (s_height s + FUTURE_HEIGHT_GAP <? 2 ^ 64) | _ => false end) log.
Lemma got_early_ok log m : got_early log m = true ->
  exists e0 s0 o0 r0, NState e0 (IMsg m) s0 o0 r0 ∈ log /\ ahead nlc m s0 /\ s_height s0 + FUTURE_HEIGHT_GAP < 2 ^ 64.
Proof.
  intros (g & Hg & Hb)%existsb_exists. apply elem_of_list_In in Hg. destruct g as [| |e i s o r| | | | | |]; try done. destruct i; try done.
  apply andb_true_iff in Hb as [[<-%same_msg_ok Hb]%andb_true_iff H3%N.ltb_lt]. apply earlyb_ok in Hb. eauto 10.
Qed.
Definition enters_2 (n : node bytes) (g : list (nlog bytes)) : bool :=
  match g with
  | [NState _ _ s o _] => (s_height s =? 1) && (s_height (nd_st n) =? 2) && s_power (nd_st n) &&
      forallb (fun a => match a with ASave _ ok => ok | _ => true end) o
  | _ => false
  end.
Lemma enters_from n g : enters_2 n g = true -> exists e i s o r, g = [NState e i s o r] /\ s_height s = 1 /\ s_height (nd_st n) = 2 /\
  s_power (nd_st n) = true /\ (forall w, ASave w false ∉ o).
Proof.
  unfold enters_2. destruct g as [|[| |e i s o r| | | | | |] [|]]; try done. rewrite !andb_true_iff, !N.eqb_eq. intros (((A & B) & C) & D).
  do 5 eexists. split; [reflexivity|]. split; [done|]. split; [done|]. split; [done|]. intros w Hin. rewrite forallb_forall in D. apply elem_of_list_In, D in Hin. done.
Qed.
Definition bnode : node bytes := ndnode nA before_2.
Definition blog : list (nlog bytes) := ndlog nA before_2.
Definition blab : label bytes := LMsg (nenv nA true).
Lemma before_2_ok : ndok nA before_2 = true. Proof. vm_compute. reflexivity. Qed.
Lemma before_2_runs : ndrun nA blog bnode. Proof. exact (ndok_run _ _ before_2_ok). Qed.
Lemma before_2_early : forallb (got_early blog) for2 = true. Proof. vm_compute. reflexivity. Qed.
Lemma before_2_enters : enters_2 (step_node nA blab bnode) (step_log nA blab bnode) = true. Proof. vm_compute. reflexivity. Qed.
Lemma for2_heights m : m ∈ for2 -> msg_height m = Ok 2.
Proof. unfold for2. rewrite !elem_of_cons. intros [->|[->|[->|Hx%elem_of_nil]]]; done. Qed.
Lemma waiting_generic (l : label bytes) log (n : node bytes) : ndrun nA log n -> forallb (got_early log) for2 = true ->
  enters_2 (step_node nA l n) (step_log nA l n) = true -> forall m, m ∈ for2 ->
  exists n' l1 e i s o r h, ndrun nA (l1 ++ [NState e i s o r]) n' /\
    (exists e0 s0 o0 r0, NState e0 (IMsg m) s0 o0 r0 ∈ l1 /\ ahead nlc m s0 /\ s_height s0 + FUTURE_HEIGHT_GAP < 2 ^ 64) /\
    msg_height m = Ok h /\ s_height s < h /\ s_height (nd_st n') = h /\ s_power (nd_st n') = true /\ (forall w, ASave w false ∉ o).
Proof.
  intros Hr He Hn m Hm. rewrite forallb_forall in He. specialize (He m ltac:(by apply elem_of_list_In)).
  assert (step_log nA l n <> []) as Hne by (intros E; by rewrite E in Hn).
  pose proof (step_run _ _ _ _ Hr Hne) as Hr'. apply enters_from in Hn as (e & i & s & o & r & E & A & B & C & D). rewrite E in Hr'.
  exists (step_node nA l n), log, e, i, s, o, r, 2. split; [exact Hr'|]. split; [by apply got_early_ok|]. split; [by apply for2_heights|].
  split; [rewrite A; lia|]. done.
Qed.
(** The hypotheses of [C61_early_messages_wait_for_their_height] are met, for each kind of message. *)
Example waiting_applies m : m ∈ for2 ->
  exists n' l1 e i s o r h, ndrun nA (l1 ++ [NState e i s o r]) n' /\
    (exists e0 s0 o0 r0, NState e0 (IMsg m) s0 o0 r0 ∈ l1 /\ ahead nlc m s0 /\ s_height s0 + FUTURE_HEIGHT_GAP < 2 ^ 64) /\
    msg_height m = Ok h /\ s_height s < h /\ s_height (nd_st n') = h /\ s_power (nd_st n') = true /\ (forall w, ASave w false ∉ o).
Proof. exact (waiting_generic _ _ _ before_2_runs before_2_early before_2_enters m). Qed.
(** What the theorem promises is what happens: all three go to verification. *)
Example waiting_verified :
  forallb (fun m => existsb (fun a => match a with AVerify _ m' => same_msg m' m | _ => false end) (actions (step_log nA blab bnode))) for2 = true.
Proof. vm_compute. reflexivity. Qed.

(** ** A proposal for the next round *)
(** In round 0 A gets the proposal of C for round 1; then round 0 is given up. *)
Definition early1 : sproposal bytes := nprop nC 1 1 blk None.
Definition before_round_1 : list (label bytes) :=
  let e := nenv nA true in
  status_through nA (nstatus 1) ++ [LSmr; LEvent e; LArm] ++ through nA (MProposal early1) ++ through nA (nvchoke nB) ++ through nA (nvchoke nC) ++
  through nA (nvchoke nD) ++ [LSmr].
Definition tnode : node bytes := ndnode nA before_round_1.
Definition tlog : list (nlog bytes) := ndlog nA before_round_1.
Definition tlab : label bytes := LEvent (nenv nA true).
Definition timelypb (sp : sproposal bytes) (s : st bytes) : bool :=
  s_power s && (p_height (sp_prop sp) =? s_height s) && (s_round s <=? p_round (sp_prop sp)) && (p_round (sp_prop sp) <=? s_round s + FUTURE_ROUND_GAP) &&
  match get_proposer nlc (auth_update nvals) (p_height (sp_prop sp)) (p_round (sp_prop sp)) with Ok a => bool_decide (a = p_proposer (sp_prop sp)) | _ => false end.
Lemma timelypb_ok sp s : timelypb sp s = true -> timely_proposal nlc nvals sp s.
Proof.
  unfold timelypb, timely_proposal. rewrite !andb_true_iff, !N.eqb_eq, !N.leb_le. intros ((((A & B) & C) & D) & E).
  destruct (get_proposer _ _ _ _) as [a| |]; try done. apply bool_decide_eq_true in E as ->. done.
Qed.
Definition got_timely (log : list (nlog bytes)) (sp : sproposal bytes) (h : N) : bool :=
  existsb (fun g => match g with NState _ (IMsg m') s _ _ => same_msg m' (MProposal sp) && timelypb sp s && (s_height s =? h) && (s_round s + FUTURE_ROUND_GAP <? 2 ^ 64) | _ => false end) log.
Lemma got_timely_ok log sp h : got_timely log sp h = true ->
  exists e0 s0 o0 r0, NState e0 (IMsg (MProposal sp)) s0 o0 r0 ∈ log /\ s_height s0 = h /\ timely_proposal nlc nvals sp s0 /\ s_round s0 + FUTURE_ROUND_GAP < 2 ^ 64.
Proof.
  intros (g & Hg & Hb)%existsb_exists. apply elem_of_list_In in Hg. destruct g as [| |e i s o r| | | | | |]; try done. destruct i; try done.
  apply andb_true_iff in Hb as [[[<-%same_msg_ok Hb]%andb_true_iff H2%N.eqb_eq]%andb_true_iff H3%N.ltb_lt]. apply timelypb_ok in Hb. eauto 12.
Qed.
Definition onlyb (log : list (nlog bytes)) (sp : sproposal bytes) : bool :=
  forallb (fun g => match g with NState _ (IMsg (MProposal sp')) _ _ _ => bool_decide (sp' = sp) | _ => true end) log.
Lemma onlyb_ok log sp : onlyb log sp = true -> the_only log sp.
Proof.
  unfold onlyb. rewrite forallb_forall. intros H sp' (e & s & o & r & Hin) _ _ _. apply elem_of_list_In, H in Hin. by apply bool_decide_eq_true in Hin.
Qed.
Definition enters_round (g : list (nlog bytes)) : bool :=
  match g with
  | [NState _ (IEvent (EvNewRound _ rd _ _ _ _ _)) s o _] => (rd =? 1) && (s_height s =? 1) && s_power s &&
      existsb (fun a => match a with ASave _ ok => ok | _ => false end) o
  | _ => false
  end.
Lemma enters_round_from g : enters_round g = true -> exists e h lr lp from iv cf s o r w,
  g = [NState e (IEvent (EvNewRound h 1 lr lp from iv cf)) s o r] /\ s_height s = 1 /\ s_power s = true /\ ASave w true ∈ o.
Proof.
  unfold enters_round. destruct g as [|[| |e [|[]| |] s o r| | | | | |] [|]]; try done. rewrite !andb_true_iff, !N.eqb_eq. intros (((-> & B) & C) & (a & Ha & Hb)%existsb_exists).
  apply elem_of_list_In in Ha. destruct a as [w ok| | | | | | | | | | | |]; try done. destruct ok; [|done].
  do 11 eexists. split; [reflexivity|]. split; [done|]. split; [done|]. exact Ha.
Qed.
Lemma before_round_ok : ndok nA before_round_1 = true. Proof. vm_compute. reflexivity. Qed.
Lemma before_round_runs : ndrun nA tlog tnode. Proof. exact (ndok_run _ _ before_round_ok). Qed.
Lemma before_round_enters : enters_round (step_log nA tlab tnode) = true. Proof. vm_compute. reflexivity. Qed.
Lemma before_round_saved : all_saved (tlog ++ step_log nA tlab tnode) = true. Proof. vm_compute. reflexivity. Qed.
Lemma before_round_force : in_forceb nvals 1 (tlog ++ step_log nA tlab tnode) = true. Proof. vm_compute. reflexivity. Qed.
Lemma before_round_got : got_timely tlog early1 1 = true. Proof. vm_compute. reflexivity. Qed.
Lemma before_round_only : onlyb tlog early1 = true. Proof. vm_compute. reflexivity. Qed.
Lemma early1_facts : p_round (sp_prop early1) = 1 /\ p_proposer (sp_prop early1) <> b_addr (nboot nA None).
Proof. split; [done|discriminate]. Qed.
Lemma taken_generic (l : label bytes) log (n : node bytes) (sp : sproposal bytes) :
  ndrun nA log n -> enters_round (step_log nA l n) = true -> all_saved (log ++ step_log nA l n) = true ->
  in_forceb nvals 1 (log ++ step_log nA l n) = true -> got_timely log sp 1 = true -> onlyb log sp = true -> p_round (sp_prop sp) = 1 /\ p_proposer (sp_prop sp) <> b_addr (nboot nA None) ->
  exists log n l1 e h rd lr lp from iv cf s o r w,
    let entry := NState e (IEvent (EvNewRound h rd lr lp from iv cf)) s o r in
    ndrun nA log n /\ log = (l1 ++ [entry]) ++ [] /\
    (forall w, ASave w false ∉ actions (l1 ++ [entry])) /\ in_force_at nvals (s_height s) (l1 ++ [entry]) /\
    s_height s + FUTURE_HEIGHT_GAP < 2 ^ 64 /\ rd + FUTURE_ROUND_GAP < 2 ^ 64 /\
    (exists e0 s0 o0 r0, NState e0 (IMsg (MProposal sp)) s0 o0 r0 ∈ l1 /\ s_height s0 = s_height s /\ timely_proposal nlc nvals sp s0 /\
       s_round s0 + FUTURE_ROUND_GAP < 2 ^ 64) /\
    p_round (sp_prop sp) = rd /\ p_proposer (sp_prop sp) <> b_addr (nboot nA None) /\ the_only l1 sp /\ s_power s = true /\ ASave w true ∈ o.
Proof.
  intros Hr Hn Hs Hf Hg Ho [Hf1 Hf2]. assert (step_log nA l n <> []) as Hne by (intros E; by rewrite E in Hn).
  pose proof (step_run _ _ _ _ Hr Hne) as Hr'. apply enters_round_from in Hn as (e & h & lr & lp & from & iv & cf & s & o & r & w & E & A & B & C).
  rewrite E in Hr', Hs, Hf. do 15 eexists. cbv zeta. split; [exact Hr'|]. split; [by rewrite app_nil_r|]. rewrite A.
  split; [by apply all_saved_ok|]. split; [by apply in_forceb_ok|]. split; [done|]. split; [done|]. split; [by apply got_timely_ok|].
  split; [done|]. split; [done|]. split; [by apply onlyb_ok|]. split; [done|exact C].
Qed.
(** The hypotheses of [C61_early_proposals_are_taken] are met. *)
Example taking_applies :
  exists log n l1 e h rd lr lp from iv cf s o r w,
    let entry := NState e (IEvent (EvNewRound h rd lr lp from iv cf)) s o r in
    ndrun nA log n /\ log = (l1 ++ [entry]) ++ [] /\
    (forall w, ASave w false ∉ actions (l1 ++ [entry])) /\ in_force_at nvals (s_height s) (l1 ++ [entry]) /\
    s_height s + FUTURE_HEIGHT_GAP < 2 ^ 64 /\ rd + FUTURE_ROUND_GAP < 2 ^ 64 /\
    (exists e0 s0 o0 r0, NState e0 (IMsg (MProposal early1)) s0 o0 r0 ∈ l1 /\ s_height s0 = s_height s /\ timely_proposal nlc nvals early1 s0 /\
       s_round s0 + FUTURE_ROUND_GAP < 2 ^ 64) /\
    p_round (sp_prop early1) = rd /\ p_proposer (sp_prop early1) <> b_addr (nboot nA None) /\ the_only l1 early1 /\ s_power s = true /\ ASave w true ∈ o.
Proof. exact (taken_generic _ _ _ _ before_round_runs before_round_enters before_round_saved before_round_force before_round_got before_round_only early1_facts). Qed.
Example taking_happens :
  omap (fun a => match a with ACheck h r x _ => Some (h, r, x) | _ => None end) (actions (step_log nA tlab tnode)) = [(1, 1, nhash blk)].
Proof. vm_compute. reflexivity. Qed.

(** ** A proposal for the current round *)
Definition now1 : sproposal bytes := nprop nB 1 0 blk None.
Definition ulab : label bytes := LMsg (nenv nA true).
Definition ulog : list (nlog bytes) := ndlog nA until_proposed.
Definition current (g : list (nlog bytes)) : bool :=
  match g with
  | [NState _ (IMsg (MProposal sp)) s _ _] => bool_decide (sp = now1) && (s_height s =? 1) && (s_round s =? 0) && timelypb sp s
  | _ => false
  end.
Lemma current_from g : current g = true -> exists e s o r, g = [NState e (IMsg (MProposal now1)) s o r] /\ s_height s = 1 /\ s_round s = 0 /\ timely_proposal nlc nvals now1 s.
Proof.
  unfold current. destruct g as [|[| |e i s o r| | | | | |] [|]]; try done; [|by destruct i as [| | |[]]].
  destruct i as [| | |m]; try done. destruct m as [sp| | | | |]; try done.
  rewrite !andb_true_iff, !N.eqb_eq, bool_decide_eq_true. intros (((-> & A) & B) & C%timelypb_ok). do 4 eexists. split; [reflexivity|]. done.
Qed.
Lemma ulog_current : current (step_log nA ulab pnode) = true. Proof. vm_compute. reflexivity. Qed.
Lemma ulog_saved : all_saved (ulog ++ step_log nA ulab pnode) = true. Proof. vm_compute. reflexivity. Qed.
Lemma ulog_force : in_forceb nvals 1 (ulog ++ step_log nA ulab pnode) = true. Proof. vm_compute. reflexivity. Qed.
Lemma ulog_only : onlyb (ulog ++ step_log nA ulab pnode) now1 = true. Proof. vm_compute. reflexivity. Qed.
Lemma current_generic (l : label bytes) log (n : node bytes) :
  ndrun nA log n -> current (step_log nA l n) = true -> all_saved (log ++ step_log nA l n) = true ->
  in_forceb nvals 1 (log ++ step_log nA l n) = true -> onlyb (log ++ step_log nA l n) now1 = true ->
  exists log n l1 e s o r, let now := l1 ++ [NState e (IMsg (MProposal now1)) s o r] in
    ndrun nA log n /\ log = now ++ [] /\ (forall w, ASave w false ∉ actions now) /\ in_force_at nvals (s_height s) now /\ far_from_end s /\
    timely_proposal nlc nvals now1 s /\ p_round (sp_prop now1) = s_round s /\ the_only now now1.
Proof.
  intros Hr Hn Hs Hf Ho. assert (step_log nA l n <> []) as Hne by (intros E; by rewrite E in Hn).
  pose proof (step_run _ _ _ _ Hr Hne) as Hr'. apply current_from in Hn as (e & s & o & r & E & A & B & C).
  rewrite E in Hr', Hs, Hf, Ho. do 7 eexists. cbv zeta. split; [exact Hr'|]. split; [by rewrite app_nil_r|].
  split; [by apply all_saved_ok|]. split; [rewrite A; by apply in_forceb_ok|]. split; [unfold far_from_end; rewrite A, B; done|]. split; [done|].
  split; [by rewrite B|by apply onlyb_ok].
Qed.
Lemma ulog_runs : ndrun nA ulog pnode. Proof. exact pnode_runs. Qed.
(** The hypotheses of [C56_timely_proposals_are_taken] are met. *)
Example timely_applies :
  exists log n l1 e s o r, let now := l1 ++ [NState e (IMsg (MProposal now1)) s o r] in
    ndrun nA log n /\ log = now ++ [] /\ (forall w, ASave w false ∉ actions now) /\ in_force_at nvals (s_height s) now /\ far_from_end s /\
    timely_proposal nlc nvals now1 s /\ p_round (sp_prop now1) = s_round s /\ the_only now now1.
Proof. exact (current_generic ulab ulog pnode ulog_runs ulog_current ulog_saved ulog_force ulog_only). Qed.
