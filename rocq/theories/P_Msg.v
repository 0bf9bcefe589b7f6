(** * P_Msg: which messages a node takes notice of (C42, C43, C44). *)
From Verif Require Export StateQc StateEx SmrProofs.
Set Default Proof Using "Type".

Section M.
Context {T : Type} `{EqDecision T}.
Context (lc : lcfg) (tenc : T -> bytes) (tdec : bytes -> option T) (spill : bool).
Local Notation run := (run lc tenc tdec spill).
Local Notation react := (react lc tenc).

(** ** C42 *)
(** Height and round of a proposal or vote. *)
Definition hr_of (m : omsg T) : option (N * N) :=
  match m with
  | MProposal sp => Some (p_height (sp_prop sp), p_round (sp_prop sp))
  | MVote v => Some (v_height (sv_vote v), v_round (sv_vote v))
  | _ => None
  end.
(** Behind the node, or more than 5 heights or 10 rounds ahead of it (a later height starts at
    round 0). *)
Definition outdated (s : st T) (h r : N) : Prop := h < s_height s \/ (h = s_height s /\ r < s_round s).
Definition far_ahead (s : st T) (h r : N) : Prop :=
  s_height s + 5 < h \/ (h = s_height s /\ s_round s + 10 < r) \/ (s_height s < h /\ 10 < r).
Lemma filtered s h r : h < 2 ^ 64 -> r < 2 ^ 64 -> outdated s h r \/ far_ahead s h r -> filter_message s h r = true.
Proof.
  clear lc tenc tdec spill. intros Hh Hr Hc. unfold filter_message, FUTURE_HEIGHT_GAP, FUTURE_ROUND_GAP.
  destruct (N.ltb_spec h (s_height s)); [done|]. destruct (N.eqb_spec h (s_height s)) as [E|E]; simpl.
  - destruct (N.ltb_spec r (s_round s)); [done|].
    destruct (N.ltb_spec (w64 (s_height s + 5)) h); [done|].
    destruct (N.ltb_spec (w64 (s_round s + 10)) r); [done|]. exfalso.
    unfold outdated, far_ahead in Hc. destruct Hc as [[?|[_ ?]]|[?|[[_ ?]|[? _]]]]; try lia.
    unfold w64 in *. rewrite N.mod_small in * by lia. lia.
  - destruct (N.ltb_spec (w64 (s_height s + 5)) h); [done|].
    destruct (N.ltb_spec (s_height s) h); [|lia]. destruct (N.ltb_spec 10 r); [done|]. exfalso.
    unfold outdated, far_ahead in Hc. destruct Hc as [[?|[? _]]|[?|[[? _]|[_ ?]]]]; try lia.
    unfold w64 in *. rewrite N.mod_small in * by lia. lia.
Qed.
Lemma vote_filtered e v s :
  filter_message s (v_height (sv_vote v)) (v_round (sv_vote v)) = true ->
  handle_signed_vote (T:=T) e v s = (s, [], Ok tt).
Proof. intros Hf. unfold handle_signed_vote, get, ret. by rewrite Hf. Qed.

Theorem C42_outdated_and_far_messages_dropped :
  forall e m h r s s' o res, hr_of m = Some (h, r) -> h < 2 ^ 64 -> r < 2 ^ 64 ->
    outdated s h r \/ far_ahead s h r ->
    react e (IMsg m) s = (s', o, res) -> s' = s /\ o = [].
Proof.
  intros e m h r s s' o res Hm Hh Hr Hc Hx. pose proof (filtered _ _ _ Hh Hr Hc) as Hf.
  destruct m as [sp|v| | | |]; try done; simpl in Hm; injection Hm as <- <-.
  all: eapply react_core in Hx; [|reflexivity]; destruct Hx as [(skip & -> & -> & _)|(nskip & r' & Hx & _)]; [done|].
  - apply hsp_inv in Hx. cbv zeta in Hx. rewrite Hf in Hx. destruct Hx as [(-> & -> & _)|[(_ & ? & _)|(_ & ? & _)]]; done.
  - rewrite vote_filtered in Hx by done. by injection Hx as <- <- <-.
Qed.
(** Certificates: of a lower height, or of a later height that is 5 or more ahead or has a round
    of 10 or more; at the node's height a prevote certificate, and a precommit certificate for
    no block, of an earlier round. *)
Theorem C42_certificates_dropped :
  forall e q s s' o res, av_height q < 2 ^ 64 ->
    av_height q < s_height s \/
    (s_height s < av_height q /\ (s_height s + 5 <= av_height q \/ 10 <= av_round q)) \/
    (av_height q = s_height s /\ av_round q < s_round s /\ (av_type q = Prevote \/ av_hash q = [])) ->
    react e (IMsg (MAgg q)) s = (s', o, res) -> s' = s /\ o = [].
Proof.
  intros e q s s' o res Hh Hc Hx. eapply react_core in Hx; [|reflexivity].
  destruct Hx as [(skip & -> & -> & _)|(nskip & r' & Hx & _)]; [done|].
  assert (qc_dropped s q) as Hd.
  { clear lc tenc tdec spill. destruct Hc as [?|[[H1 H2]|?]]; [by left| |by right; right]. right. left. split; [done|].
    unfold FUTURE_HEIGHT_GAP, FUTURE_ROUND_GAP. intros [H3 H4]. destruct H2 as [H2|H2]; [|lia].
    unfold w64 in H3. destruct (N.lt_ge_cases (s_height s + 5) (2 ^ 64)); [rewrite N.mod_small in H3 by lia; lia|].
    lia. }
  apply agg_inv in Hx as [(_ & -> & -> & _)|[(_ & ? & _)|(_ & ? & _)]]; done.
Qed.

(** Nothing is cached more than 5 heights ahead. *)
Definition near (s : st T) : Prop :=
  forall h, s_height s + 5 < h -> s_votes s !! h = None /\ s_props s !! h = None.
Definition nearR (s : st T) (o : list (action T)) (s' : st T) : Prop := near s -> near s'.
Lemma nearR_comp : comp nearR.
Proof. split; [by intros s Hn|]. intros s1 s2 s3 o1 o2 A B Hn. by apply B, A. Qed.
Lemma nearR_same s o s' :
  s_height s' = s_height s -> s_votes s' = s_votes s -> s_props s' = s_props s -> nearR s o s'.
Proof. unfold nearR, near. intros -> -> ->. done. Qed.
Lemma near_vset s h x (f : st T -> st T) :
  h <= s_height s + 5 -> (s_height (f s) = s_height s) -> s_votes (f s) = <[h := x]> (s_votes s) ->
  s_props (f s) = s_props s -> near s -> near (f s).
Proof.
  clear lc tenc tdec spill. intros Hh E1 E2 E3 Hn k Hk. rewrite E1 in Hk. rewrite E2, E3. destruct (Hn k Hk) as [A B]. split; [|done].
  rewrite lookup_insert_ne by lia. done.
Qed.
Lemma near_goto e stt : keeps nearR (goto_new_height e stt).
Proof.
  clear lc tenc tdec spill. intros s s' o r Hg Hn k.
  apply goto_inv in Hg as [(? & -> & -> & _)|[(? & _ & -> & -> & _)|[(? & _ & -> & _)|(? & _ & -> & _)]]].
  - apply Hn.
  - simpl. intros Hk. apply Hn. lia.
  - simpl. intros Hk. apply Hn. lia.
  - intros Hk. assert (s_height s + 5 < k) as Hk2.
    { revert Hk. unfold moved_full. destruct (st_interval stt); simpl; lia. }
    destruct (Hn k Hk2) as [A B].
    assert (delete (st_height stt) (split_off (st_height stt - 1) (s_votes s)) !! k = None) as E1.
    { apply lookup_delete_None. right. apply map_filter_lookup_None. by left. }
    assert (delete (st_height stt) (split_off (st_height stt - 1) (s_props s)) !! k = None) as E2.
    { apply lookup_delete_None. right. apply map_filter_lookup_None. by left. }
    assert ((vc_take_height (kept_votes stt s) (st_height stt)).1 = delete (st_height stt) (split_off (st_height stt - 1) (s_votes s))) as E3.
    { unfold vc_take_height, kept_votes, vc_flush. by destruct (_ !! _). }
    unfold moved_full. change (kept_votes stt (moved stt s)) with (kept_votes stt s).
    change (kept_props stt (moved stt s)) with (kept_props stt s).
    destruct (st_interval stt); cbn [s_votes s_props set_s_chokes set_s_blocks set_s_votes set_s_props]; rewrite E3; split; done.
Qed.
Lemma near_publish e hash t : keeps nearR (publish_qc e hash t).
Proof.
  clear lc tenc tdec spill. intros s s' o r Hp. apply publish_inv in Hp as [[_ ->]|(l & sig & _ & Hp)]; [by apply nearR_same|].
  cbv zeta in Hp. destruct Hp as (_ & -> & _). intros Hn.
  eapply (near_vset _ (s_height s) _ (fun s => set_s_votes _ s)); [|done..|done]. lia.
Qed.
Local Hint Resolve near_goto near_publish : keepsdb.
Lemma near_own e hash t lr : keeps nearR (handle_vote_event e hash t lr).
Proof.
  clear lc tenc tdec spill. assert (keeps nearR (vote_process (T:=T) e t)) as Hvp.
  { keeps_go nearR_comp. all: try by apply nearR_same. }
  intros s s' o r Hp. apply vote_event_inv in Hp as [(-> & _)|(sig & l & _ & _ & Hp)]; [by apply nearR_same|].
  cbv zeta in Hp. destruct Hp as [(_ & -> & _)|(_ & o2 & Hp)]; [by apply nearR_same|].
  destruct (s_leader s); destruct Hp as [-> Hp]; apply Hvp in Hp; intros Hn; apply Hp; [|done].
  eapply (near_vset _ (s_height s) _ (fun s => set_s_votes _ s)); [|done..|done]. lia.
Qed.
Lemma near_agg e q : keeps nearR (handle_aggregated_vote e q).
Proof.
  clear lc tenc tdec spill. intros s s' o r Ha Hn.
  assert (w64 (s_height s + FUTURE_HEIGHT_GAP) <= s_height s + 5) as Hw.
  { unfold w64, FUTURE_HEIGHT_GAP. by apply N.mod_le. }
  apply agg_inv in Ha as [(_ & -> & _)|[(Hh & Hd & -> & _)|(Hh & _ & -> & _)]]; [done|..].
  - eapply (near_vset _ (av_height q) _ (with_qc q)); [|done..|done].
    destruct (N.le_gt_cases (av_height q) (s_height s + 5)); [done|].
    exfalso. apply Hd. right. left. split; [done|]. lia.
  - eapply (near_vset _ (av_height q) _ (with_qc q)); [|done..|done]. lia.
Qed.
Lemma near_filter (s : st T) h r : filter_message s h r = false -> h <= s_height s + 5.
Proof.
  clear lc tenc tdec spill. unfold filter_message, FUTURE_HEIGHT_GAP, FUTURE_ROUND_GAP.
  assert (w64 (s_height s + 5) <= s_height s + 5) as Hw. { unfold w64. by apply N.mod_le. }
  destruct (_ || _); [done|]. destruct (N.ltb_spec (w64 (s_height s + 5)) h); [done|]. lia.
Qed.
Lemma near_vote e v : keeps nearR (handle_signed_vote e v).
Proof.
  intros s s' o r Ha. unfold handle_signed_vote, get in Ha. destruct (filter_message _ _ _) eqn:Ef.
  { unfold ret in Ha. simplify_eq. by apply nearR_same. }
  apply near_filter in Ef.
  apply bind_inv in Ha as [(u & s1 & o1 & o2 & H1 & H2 & ->)|[(x & H1 & ->)|(H1 & ->)]];
    apply ro_verify_address in H1; unfold same in H1; subst; [|by apply nearR_same..].
  destruct (is_ok _). { unfold ret in H2. simplify_eq. by apply nearR_same. }
  apply bind_inv in H2 as [(u' & s1 & o3 & o4 & H1 & H2 & ->)|[(x & H1 & ->)|(H1 & ->)]];
    unfold modify in H1; simplify_eq.
  assert (near s -> near (set_s_votes (vc_insert_vote (s_votes s) (v_hash (sv_vote v)) v (sv_voter v)) s)) as Hn.
  { intros Hn. by eapply (near_vset _ (v_height (sv_vote v)) _ (fun s => set_s_votes _ s)). }
  intros Hs. revert Hn H2. generalize (set_s_votes (vc_insert_vote (s_votes s) (v_hash (sv_vote v)) v (sv_voter v)) s).
  intros s1 Hn H2. specialize (Hn Hs). revert Hn.
  match type of H2 with ?x _ = _ => assert (keeps nearR x) as Hk by keeps_go nearR_comp end. exact (Hk _ _ _ _ H2).
Qed.
Lemma near_hsp e sp : keeps nearR (handle_signed_proposal lc e sp).
Proof.
  intros s s' o r Ha Hn. apply hsp_inv in Ha. cbv zeta in Ha.
  assert (forall s2 : st T, s_height s2 = s_height s -> s_votes s2 = s_votes s ->
    s_props s2 = (pc_insert (s_props s) (p_height (sp_prop sp)) (p_round (sp_prop sp)) sp).1 ->
    p_height (sp_prop sp) <= s_height s + 5 -> near s2) as Hi.
  { intros s2 E1 E2 E3 Hh k Hk. rewrite E1 in Hk. rewrite E2, E3. destruct (Hn k Hk) as [A B]. split; [done|].
    unfold pc_insert. destruct (prc_insert _ _ _); simpl; rewrite lookup_insert_ne by (clear -Hh Hk; lia); done. }
  destruct Ha as [(-> & -> & _)|[(_ & Hf & _ & -> & _)|(_ & Hf & _ & _ & -> & _)]]; [done|..].
  all: apply near_filter in Hf; by apply Hi.
Qed.
Local Hint Resolve near_own near_agg near_vote near_hsp : keepsdb.
Lemma near_react e i : keeps nearR (react e i).
Proof.
  apply (keeps_react _ _ _ nearR_comp).
  - intros m ->. apply (keeps_msg _ _ nearR_comp); intros; subst; eauto 1 with keepsdb nocore; try by apply nearR_same.
    keeps_go nearR_comp; by apply nearR_same.
  - intros m _. keeps_go nearR_comp; by apply nearR_same.
  - intros m _. keeps_go nearR_comp; by apply nearR_same.
  - intros ev _. keeps_go nearR_comp; apply nearR_same; repeat case_match; done.
Qed.
(** In every run, provided the log record it started from is not itself ahead of its height
    (see C36: no record is), no proposal, vote or certificate is held for a height more than 5
    ahead of the node's. *)
Theorem C42_nothing_cached_far_ahead :
  forall b is o s al, run b is o s al ->
    (forall w l, boot_wal tdec spill b w -> wi_lock w = Some l -> av_height (wl_votes l) <= wi_height w + 5) ->
    forall h, s_height s + 5 < h ->
      (forall r sp, pc_get (s_props s) h r <> Ok sp) /\
      (forall r t x l, vc_get_votes (s_votes s) h r t x <> Ok l) /\
      (forall r t q, vc_get_qc_by_id (s_votes s) h r t <> Ok q).
Proof.
  intros b is o s al Hrun Hb. enough (near s) as Hn.
  { intros h Hh. destruct (Hn h Hh) as [A B]. split_and!.
    - intros r sp. unfold pc_get. by rewrite B.
    - intros r t x l. unfold vc_get_votes, vc_round. by rewrite A.
    - intros r t q. unfold vc_get_qc_by_id, vc_round. by rewrite A. }
  induction Hrun as [s o r Hs|is o s e i s' o' r Hr IH Hs].
  2: { by eapply near_react; [|apply IH]. }
  unfold on_start in Hs. apply logged_inv in Hs as (r' & Hs & _).
  apply start_inv in Hs as [(-> & _)|(w & bs & Hw & Hd & _ & [[-> ->]|(p & Hg & Ht)])].
  - intros h Hh. simpl. by rewrite !lookup_empty.
  - intros h Hh. simpl. by rewrite !lookup_empty.
  - eapply (keeps_start_tail lc _ nearR_comp); [..|exact Ht|].
    + intros h. keeps_go nearR_comp; by apply nearR_same.
    + intros rr lr. keeps_go nearR_comp; by apply nearR_same.
    + intros; by apply nearR_same.
    + unfold loaded_state. destruct (wi_lock w) as [l|] eqn:El; intros h Hh; simpl in *.
      * rewrite lookup_empty. split; [|done]. unfold vc_set_qc. rewrite lookup_insert_ne; [by rewrite lookup_empty|].
        assert (av_height (wl_votes l) <= wi_height w + 5) by (apply Hb; [by exists bs|done]). clear -H Hh. lia.
      * by rewrite !lookup_empty.
Qed.

(** ** C43 *)
(** A node that is not a validator, receiving anything but a rich status: nothing changes, and
    all it does is hand a message from the user on to verification or to its queue. *)
Definition passes_on (i : input T) (o : list (action T)) : Prop :=
  o = [] \/ exists m, i = IRaw m /\ (o = [AQueue m] \/ exists a, o = [AVerify a m]).
Lemma raw_inv m s s' o r :
  on_raw (T:=T) m s = (s', o, r) ->
  s' = s /\ (o = [] \/ o = [AQueue m] \/ o = [AVerify (s_auth s) m]).
Proof.
  unfold on_raw. destruct (is_rich_status m); [unfold emit; intros; simplify_eq; auto|].
  unfold bind, lift, get. destruct (msg_height m) as [h| |]; [|intros; simplify_eq; auto..].
  unfold emit, ret. destruct (s_height s <? h); [intros; simplify_eq; auto|].
  destruct (s_height s =? h); intros; simplify_eq; auto.
Qed.
Theorem C43_silent_unless_validator :
  forall e i s s' o r, s_power s = false -> (forall stt, i <> IMsg (MStatus stt)) ->
    react e i s = (s', o, r) -> s' = s /\ passes_on i o.
Proof.
  intros e i s s' o r Hp Hi Hr. destruct i as [m|ev|rs|m]; unfold StateHist.react in Hr.
  - apply bind_inv in Hr as [(u & s1 & o1 & o2 & H1 & H2 & ->)|[(x & H1 & ->)|(H1 & ->)]];
      apply raw_inv in H1 as [-> H1]; [unfold ret in H2; simplify_eq; rewrite app_nil_r|..]; (split; [done|]).
    all: destruct H1 as [->|[->| ->]]; [by left|right..]; exists m; (split; [done|]); eauto.
  - unfold on_event, get in Hr. rewrite Hp in Hr. split; [|left]; destruct (s_stopped s); unfold ret in Hr; simpl in Hr; by simplify_eq.
  - unfold bind, on_resp, get in Hr. rewrite Hp in Hr. unfold ret in Hr. simpl in Hr. simplify_eq. split; [done|by left].
  - unfold bind, on_msg, handle_msg, get in Hr. rewrite Hp in Hr.
    destruct (is_rich_status m) eqn:Em; [destruct m; try done; by destruct (Hi s0)|].
    unfold ret in Hr. simpl in Hr. simplify_eq. split; [done|by left].
Qed.
(** Whether the node is a validator changes only when it adopts a rich status (received, or
    returned by commit) of a higher height, and is then decided by that status's list. *)
Definition powerR (e : env T) (i : input T) (s : st T) (o : list (action T)) (s' : st T) : Prop :=
  s_addr s' = s_addr s /\ s_height s <= s_height s' /\
  (s_power s' = s_power s /\ s_height s' = s_height s \/
   exists stt, s_height s < st_height stt /\ s_height s' = st_height stt /\
     s_power s' = bool_decide (s_addr s ∈ n_addr <$> st_auth stt) /\
     (i = IMsg (MStatus stt) \/ exists h c, ACommit h c ∈ o /\ e_commit e h c = Some stt)).
Lemma powerR_same e i s o s' :
  s_addr s' = s_addr s -> s_height s' = s_height s -> s_power s' = s_power s -> powerR e i s o s'.
Proof. intros E1 E2 E3. unfold powerR. rewrite E1, E2. split_and!; [done|done|by left]. Qed.
Lemma powerR_comp e i : comp (powerR e i).
Proof.
  split; [intros s; by apply powerR_same|].
  clear lc tenc tdec spill.
  intros s1 s2 s3 o1 o2 (A1 & A2 & A3) (B1 & B2 & B3). split_and!; [congruence|lia|].
  destruct B3 as [[B3 B4]|(stt & C1 & C2 & C3 & C4)].
  - rewrite B3, B4. destruct A3 as [?|(stt & C1 & C2 & C3 & C4)]; [by left|]. right. exists stt. split_and!; try done.
    destruct C4 as [?|(h & c & ? & ?)]; [by left|right; exists h, c; split; [set_solver|done]].
  - right. exists stt. split_and!; [lia|done|by rewrite C3, A1|].
    destruct C4 as [?|(h & c & ? & ?)]; [by left|right; exists h, c; split; [set_solver|done]].
Qed.
Lemma is_node stt a : is_consensus_node stt a = bool_decide (a ∈ n_addr <$> st_auth stt).
Proof.
  unfold is_consensus_node. destruct (existsb _ _) eqn:Ee; symmetry.
  - apply bool_decide_eq_true. apply existsb_exists in Ee as (n & Hn & Ha).
    apply bool_decide_eq_true in Ha. apply elem_of_list_fmap. exists n. split; [done|]. by apply elem_of_list_In.
  - apply bool_decide_eq_false. intros Hin. apply elem_of_list_fmap in Hin as (n & -> & Hn).
    assert (existsb (fun x => bool_decide (n_addr x = n_addr n)) (st_auth stt) = true); [|congruence].
    apply existsb_exists. exists n. split; [by apply elem_of_list_In|]. by apply bool_decide_eq_true.
Qed.
Lemma power_goto (e : env T) stt s s' o r :
  goto_new_height e stt s = (s', o, r) ->
  (st_height stt <= s_height s /\ s' = s) \/
  (s_addr s' = s_addr s /\ s_height s < st_height stt /\ s_height s' = st_height stt /\
   s_power s' = bool_decide (s_addr s ∈ n_addr <$> st_auth stt)).
Proof.
  clear lc tenc tdec spill. intros Hg. rewrite <-is_node.
  apply goto_inv in Hg as [(? & -> & -> & _)|[(? & _ & -> & -> & _)|[(? & _ & -> & _)|(? & _ & -> & _)]]].
  - by left.
  - by right.
  - by right.
  - right. unfold moved_full. destruct (st_interval stt); done.
Qed.
Lemma power_react e i : keeps (powerR e i) (react e i).
Proof.
  clear tdec spill.
  assert (forall h, keeps (powerR e i) (handle_commit lc e h)) as Hcommit.
  { intros h s s' o r Hc. unfold handle_commit, get in Hc.
    repeat (case_match; [|unfold fail in Hc; simplify_eq; by apply powerR_same]).
    apply bind_inv in Hc as [(u & s1 & o1 & o2 & H1 & H2 & ->)|[(x & H1 & ->)|(H1 & ->)]];
      pose proof (ro_save _ _ _ _ _ _ _ H1) as Hx; unfold same in Hx; [subst s1|subst s'; by apply powerR_same..].
    set (c := mkCommit _ _ _) in *.
    apply bind_inv in H2 as [(u2 & s1 & o3 & o4 & H3 & H4 & ->)|[(x & H3 & ->)|(H3 & ->)]];
      unfold emit in H3; [injection H3 as <- <- _|done..].
    destruct (e_commit e (s_height s) c) as [stt|] eqn:Ec.
    2: { unfold fail in H4. simplify_eq. by apply powerR_same. }
    apply bind_inv in H4 as [(u3 & s1 & o5 & o6 & H3 & H4 & ->)|[(x & H3 & ->)|(H3 & ->)]];
      unfold modify in H3; [injection H3 as <- <- _|done..].
    apply bind_inv in H4 as [(u4 & s1 & o5 & o7 & H3 & H4 & ->)|[(x & H3 & ->)|(H3 & ->)]];
      unfold lift in H3; [injection H3 as <- <- _|injection H3 as <- <- _; by apply powerR_same..].
    apply power_goto in H4 as [[_ ->]|(E1 & E2 & E3 & E4)]; [by apply powerR_same|].
    split_and!; [done|simpl in *; rewrite E3; clear -E2; lia|]. right. exists stt. split_and!; try done.
    right. exists (s_height s), c. split; [set_solver|done]. }
  apply (keeps_react _ _ _ (powerR_comp e i)).
  - intros m ->. apply (keeps_msg _ _ (powerR_comp _ _)); intros; subst; try by apply powerR_same.
    4: { intros s s' o r Hg. apply power_goto in Hg as [[_ ->]|(E1 & E2 & E3 & E4)]; [by apply powerR_same|].
         split_and!; [done|rewrite E3; clear -E2; lia|]. right. exists stt. split_and!; try done. by left. }
    all: match goal with |- keeps (powerR ?e0 ?j) _ => keeps_go (powerR_comp e0 j) end; by apply powerR_same.
  - intros m _. keeps_go (powerR_comp e i); by apply powerR_same.
  - intros m _. keeps_go (powerR_comp e i); by apply powerR_same.
  - intros ev _. unfold handle_event. destruct ev; try (apply keeps_logged; apply Hcommit).
    all: keeps_go (powerR_comp e i); apply powerR_same; repeat case_match; done.
Qed.
Theorem C43_validator_status_follows_rich_status :
  forall e i s s' o r, react e i s = (s', o, r) ->
    (s_power s' = s_power s /\ s_height s' = s_height s) \/
    exists stt, s_height s < st_height stt /\ s_height s' = st_height stt /\
      s_power s' = bool_decide (s_addr s ∈ n_addr <$> st_auth stt) /\
      (i = IMsg (MStatus stt) \/ exists h c, ACommit h c ∈ o /\ e_commit e h c = Some stt).
Proof. intros e i s s' o r Hr. by apply power_react in Hr as (_ & _ & Hr). Qed.
Theorem C43_received_status_is_adopted :
  forall e stt s s' o r, react e (IMsg (MStatus stt)) s = (s', o, r) -> s_height s < st_height stt ->
    s_height s' = st_height stt /\ s_round s' = 0 /\ s_power s' = bool_decide (s_addr s ∈ n_addr <$> st_auth stt).
Proof.
  intros e stt s s' o r Hx Hh. eapply react_core in Hx; [|reflexivity].
  destruct Hx as [([[_ Hx]|[_ [? ?]]] & _)|(nskip & r' & Hx & _)]; [by destruct (Hx stt)|done|]. rewrite <-is_node.
  apply goto_inv in Hx as [(? & _)|[(_ & _ & -> & -> & _)|[(_ & _ & -> & _)|(_ & _ & -> & _)]]].
  - clear -Hh H. lia.
  - done.
  - done.
  - unfold moved_full. destruct (st_interval stt); done.
Qed.
(** From start to end: a node whose address is in no validator list it is given never does
    anything but pass messages to verification. *)
Theorem C43_never_validator_never_acts :
  forall b is o s al, run b is o s al ->
    b_addr b ∉ n_addr <$> b_vals b ->
    (forall stt, received is (IMsg (MStatus stt)) -> b_addr b ∉ n_addr <$> st_auth stt) ->
    Forall (fun a => (exists m, a = AQueue m) \/ (exists l m, a = AVerify l m)) o.
Proof.
  intros b is o s al Hrun Hb.
  enough ((forall stt, received is (IMsg (MStatus stt)) -> b_addr b ∉ n_addr <$> st_auth stt) ->
    Forall (fun a => (exists m, a = AQueue m) \/ (exists l m, a = AVerify l m)) o /\
    s_power s = false /\ s_addr s = b_addr b) as Hx by (intros Hi; by destruct (Hx Hi)).
  induction Hrun as [s o r Hs|is o s e i s' o' r Hr IH Hs]; intros Hi.
  - unfold on_start in Hs. apply logged_inv in Hs as (r' & Hs & _).
    assert (s_power (st_new (T:=T) (b_addr b) (b_height b) (b_interval b) (b_vals b)) = false) as Hp.
    { simpl. destruct (auth_contains _ _) eqn:Ea; [|done]. by apply auth_contains_spec in Ea. }
    unfold start_with_wal, get in Hs. rewrite Hp in Hs. unfold ret in Hs. simpl in Hs. simplify_eq. split_and!; [constructor|done..].
  - destruct IH as (F & Hp & Ha). { intros stt Hst. apply Hi. by apply received_app. }
    assert ((exists stt, i = IMsg (MStatus stt)) \/ forall stt, i <> IMsg (MStatus stt)) as [[stt ->]|Hn].
    { destruct i as [|? |?|[]]; try (right; by intros); left; eauto. }
    + assert (b_addr b ∉ n_addr <$> st_auth stt) as Hm by (apply Hi, received_last).
      eapply react_core in Hs; [|reflexivity].
      destruct Hs as [(_ & -> & -> & _)|(_ & r' & Hx & _)]; [by rewrite app_nil_r|].
      assert (is_consensus_node stt (s_addr s) = false) as Hf by (rewrite is_node; apply bool_decide_eq_false; congruence).
      apply goto_inv in Hx as [(_ & -> & -> & _)|[(_ & _ & -> & -> & _)|[(_ & Hf2 & _)|(_ & Hf2 & _)]]].
      * by rewrite app_nil_r.
      * rewrite app_nil_r. split_and!; try done.
      * congruence.
      * congruence.
    + apply C43_silent_unless_validator in Hs as [-> Ho]; try done. split_and!; try done. apply Forall_app. split; [done|].
      destruct Ho as [->|(m & -> & [->|[a ->]])]; [by constructor|..]; apply Forall_singleton;
        [left; by exists m|right; by exists a, m].
Qed.

(** ** C44 *)
(** The new-height trigger moves the state machine there, whatever it is doing below it, and
    gives the timer the interval and the configuration. *)
Definition follows_to (t : trigger) (stt : status) : Prop :=
  forall m, m_height m < st_height stt ->
    let ev := EvNewRound (st_height stt) 0 None None (FWPrecommit u64_max) (st_interval stt) (st_config stt) in
    smr_step open_chans t m =
      (mkSmr (st_height stt) 0 SPropose [] None, [ToState ev; ToTimer ev], Ok true).
Lemma new_height_follows stt : follows_to (new_height_trigger (status_smr stt)) stt.
Proof.
  intros m Hm. unfold smr_step, new_height_trigger, handle_new_height, sget, sbind. simpl.
  destruct (N.leb_spec (st_height stt) (m_height m)); [clear -Hm H; lia|]. done.
Qed.
(** A rich status of a higher height that lists the node: it moves there, saves one record and
    tells the state machine. *)
Theorem C44_higher_status_moves_the_node :
  forall e stt s s' o r, react e (IMsg (MStatus stt)) s = (s', o, r) ->
    s_height s < st_height stt -> s_addr s ∈ n_addr <$> st_auth stt ->
    (forall w, e_save e w = true) -> (forall t, e_trigger e t = true) ->
    s_height s' = st_height stt /\ s_round s' = 0 /\ s_auth s' = auth_update (st_auth stt) /\
    s_interval s' = default (s_interval s) (st_interval stt) /\ s_power s' = true /\
    s_blocks s' = ∅ /\ s_chokes s' = chokecol_new /\
    exists w vs t, o = ASave w true :: vs ++ [ATrigger t] /\
      wi_height w = st_height stt /\ wi_round w = 0 /\ wi_step w = SPropose /\ wi_lock w = None /\
      Forall (fun a => exists m, a = AVerify (auth_update (st_auth stt)) m) vs /\
      follows_to t stt.
Proof.
  intros e stt s s' o r Hx Hh Hm Hsave Htrig. eapply react_core in Hx; [|reflexivity].
  destruct Hx as [([[_ Hx]|[_ [? ?]]] & _)|(nskip & r' & Hx & _)]; [by destruct (Hx stt)|done|].
  assert (is_consensus_node stt (s_addr s) = true) as Hn by (rewrite is_node; by apply bool_decide_eq_true).
  rewrite goto_spec, Hn, Hsave in Hx. cbv zeta in Hx. rewrite Htrig in Hx. cbn [negb] in Hx.
  destruct (N.leb_spec (st_height stt) (s_height s)); [clear -Hh H; lia|]. injection Hx as <- <- <-.
  split_and!; try (unfold moved_full; destruct (st_interval stt); done).
  eexists _, _, _. split; [reflexivity|]. split_and!; try done; [|apply new_height_follows].
    apply Forall_fmap. apply Forall_forall. intros m _. simpl. eauto.
Qed.
(** One that does not list the node moves it there, silently. *)
Theorem C44_higher_status_without_the_node :
  forall e stt s s' o r, react e (IMsg (MStatus stt)) s = (s', o, r) ->
    s_height s < st_height stt -> s_addr s ∉ n_addr <$> st_auth stt ->
    s_height s' = st_height stt /\ s_round s' = 0 /\ s_power s' = false /\ o = [].
Proof.
  intros e stt s s' o r Hx Hh Hm. eapply react_core in Hx; [|reflexivity].
  destruct Hx as [([[_ Hx]|[_ [? ?]]] & _)|(nskip & r' & Hx & _)]; [by destruct (Hx stt)|done|].
  assert (is_consensus_node stt (s_addr s) = false) as Hn by (rewrite is_node; by apply bool_decide_eq_false).
  rewrite goto_spec, Hn in Hx. cbn [negb] in Hx.
  destruct (N.leb_spec (st_height stt) (s_height s)); [clear -Hh H; lia|]. by injection Hx as <- <- <-.
Qed.
(** One of the same or a lower height changes nothing. *)
Theorem C44_other_status_ignored :
  forall e stt s s' o r, react e (IMsg (MStatus stt)) s = (s', o, r) ->
    st_height stt <= s_height s -> s' = s /\ o = [].
Proof.
  intros e stt s s' o r Hx Hh. eapply react_core in Hx; [|reflexivity].
  destruct Hx as [(_ & -> & -> & _)|(nskip & r' & Hx & _)]; [done|].
  rewrite goto_spec in Hx. apply N.leb_le in Hh. rewrite Hh in Hx. by injection Hx as <- <- <-.
Qed.
End M.

(** ** Examples *)
(** A at height 1 is sent a vote 6 heights ahead, one 5 ahead with round 11, and one of an old
    height. *)
Example C42_example :
  let s := nstate nA None (take 2 follower_history) in
  nrun nA None (take 2 follower_history) (nouts nA None (take 2 follower_history)) s true /\
  far_ahead s 7 0 /\ far_ahead s 6 11 /\ outdated s 0 3 /\
  ~ (outdated s 6 10 \/ far_ahead s 6 10) /\
  let x := (react nlc ntenc (nenv nA true) (IMsg (MVote (nvote nB 6 10 Prevote hsh))) s).1.1 in
  vc_get_votes (s_votes x) 6 10 Prevote hsh = Ok [nvote nB 6 10 Prevote hsh].
Proof.
  cbv zeta. split_and!.
  - apply nstate_run. by vm_compute.
  - left. by vm_compute.
  - right; right. by vm_compute.
  - left. by vm_compute.
  - intros [[H|[H _]]|[H|[[H _]|[_ H]]]]; by vm_compute in H.
  - by vm_compute.
Qed.
(** E is no validator; it is given two statuses and a proposal. *)
Definition nE : bytes := [x0e].
Definition outsider_history : list (env bytes * input bytes) :=
  ok_env nE <$> [IMsg (MStatus (nstatus 1)); IRaw (MProposal (nprop nB 1 0 blk None));
                 IMsg (MProposal (nprop nB 1 0 blk None)); IMsg (MStatus (nstatus 2))].
Example C43_example :
  nrun nE None outsider_history (nouts nE None outsider_history) (nstate nE None outsider_history) true /\
  nE ∉ n_addr <$> nvals /\ s_height (nstate nE None outsider_history) = 2 /\
  length (nouts nE None outsider_history) = 1%nat.
Proof.
  split_and!; [apply nstate_run; by vm_compute| |by vm_compute..].
  intros H. apply elem_of_list_In in H. vm_compute in H. by repeat destruct H as [H|H].
Qed.
Example C44_example :
  let s := nstate nA None (take 5 follower_history) in
  nrun nA None (take 5 follower_history) (nouts nA None (take 5 follower_history)) s true /\
  s_height s < st_height (nstatus 3) /\ s_addr s ∈ n_addr <$> st_auth (nstatus 3).
Proof.
  cbv zeta. split_and!; [apply nstate_run; by vm_compute|by vm_compute|]. apply elem_of_list_In. vm_compute. tauto.
Qed.
(** If saving the record fails, the node is at the new height but the state machine is not told
    and the validators are still the old ones; the same status again changes nothing. *)
Definition nstatus2 : status := mkStatus 2 None None (take 3 nvals).
Theorem C44_failed_save_refuted :
  exists is o s, nrun nA None is o s true /\
    received is (IMsg (MStatus nstatus2)) /\ s_height s = st_height nstatus2 /\
    s_auth s <> auth_update (st_auth nstatus2) /\
    Forall (fun a => a <> ATrigger (new_height_trigger (status_smr nstatus2))) o.
Proof.
  set (is := [(nenv nA true, IMsg (MStatus (nstatus 1))); (nenv nA false, IMsg (MStatus nstatus2));
              (nenv nA true, IMsg (MStatus nstatus2))] : list (env bytes * input bytes)).
  exists is, (nouts nA None is), (nstate nA None is). split_and!.
  - apply nstate_run. by vm_compute.
  - exists (nenv nA false). subst is. set_solver.
  - by vm_compute.
  - intros H. assert (auth_len (s_auth (nstate nA None is)) = 3%nat) as Hl by (rewrite H; by vm_compute).
    by vm_compute in Hl.
  - eapply Forall_impl; [apply (forallb_holds (fun a => match a with ATrigger t => negb (t_height t =? 2) | _ => true end)); by vm_compute|].
    intros a Ha ->. by vm_compute in Ha.
Qed.
Print Assumptions C42_outdated_and_far_messages_dropped.
Print Assumptions C42_certificates_dropped.
Print Assumptions C42_nothing_cached_far_ahead.
Print Assumptions C43_silent_unless_validator.
Print Assumptions C43_validator_status_follows_rich_status.
Print Assumptions C43_received_status_is_adopted.
Print Assumptions C43_never_validator_never_acts.
Print Assumptions C44_higher_status_moves_the_node.
Print Assumptions C44_higher_status_without_the_node.
Print Assumptions C44_other_status_ignored.
Print Assumptions C44_failed_save_refuted.
