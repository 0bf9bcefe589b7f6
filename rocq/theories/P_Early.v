(** * P_Early: messages that arrive early wait for their time (C61). *)
From Verif Require Export P_Quorum P_Answer.
Set Default Proof Using "Type".

Section E.
Context {T : Type} `{EqDecision T}.
Context (lc : lcfg) (tenc : T -> bytes) (tdec : bytes -> option T) (spill : bool) (cr : crypto).
Local Notation noderun := (noderun lc tenc tdec spill cr).

(** ** What is kept for a height that was not entered in between *)
Definition earlyR (s : st T) (_ : list (action T)) (s' : st T) : Prop :=
  s_height s <= s_height s' /\
  forall h r, s_height s' < h \/ s_height s' = s_height s ->
    (forall t a v, fvote s h r t a = Some v -> fvote s' h r t a = Some v) /\
    (forall t, has_qc s h r t -> has_qc s' h r t) /\
    (forall sp, pget (s_props s) h r = Some sp -> pget (s_props s') h r = Some sp).
Lemma early_comp : comp earlyR.
Proof.
  clear lc tenc tdec spill cr. split; [intros s0; split; [lia|auto]|]. intros s1 s2 s3 o1 o2 [A1 A2] [B1 B2]. split; [lia|].
  intros h r Hh. destruct (A2 h r) as (A3 & A4 & A5); [lia|]. destruct (B2 h r) as (B3 & B4 & B5); [lia|]. split_and!; auto.
Qed.
Lemma early_same (s : st T) o s' : s_height s' = s_height s -> s_votes s' = s_votes s -> s_props s' = s_props s -> earlyR s o s'.
Proof. clear lc tenc tdec spill cr. intros E1 E2 E3. split; [lia|]. intros h r _. unfold fvote, has_qc. rewrite E2, E3. auto. Qed.
Lemma early_op (s : st T) o s' op : s_height s' = s_height s -> s_props s' = s_props s -> s_votes s' = vop_run (s_votes s) op ->
  (match op with VTake _ | VFlush _ => False | _ => True end) -> earlyR s o s'.
Proof.
  clear lc tenc tdec spill cr. intros E1 E2 E3 Hop. split; [lia|]. intros h r _. rewrite E2. split_and!; [intros; by eapply fvote_op|intros; by eapply has_qc_op|done].
Qed.
Lemma early_prop (s : st T) o s' h0 r0 p : s_height s' = s_height s -> s_votes s' = s_votes s -> s_props s' = (pc_insert (s_props s) h0 r0 p).1 -> earlyR s o s'.
Proof.
  clear lc tenc tdec spill cr. intros E1 E2 E3. split; [lia|]. intros h r _. unfold fvote, has_qc. rewrite E2. split_and!; [done..|].
  intros sp Hsp. rewrite E3. change (pc_insert (s_props s) h0 r0 p).1 with (pop_run (s_props s) (PInsert h0 r0 p)). rewrite pget_step. simpl. by rewrite Hsp.
Qed.
Lemma early_goto e stt : keeps earlyR (goto_new_height (T:=T) e stt).
Proof using EqDecision0 T.
  clear lc tenc tdec spill cr. intros s s' o r Hg.
  assert (s_height s < st_height stt -> earlyR s o (moved stt s)) as Hm.
  { intros Hlt. split; simpl; [lia|]. intros h rd _. auto. }
  apply goto_inv in Hg as [(? & -> & -> & _)|[(? & _ & -> & -> & _)|[(? & _ & -> & _)|(Hlt & _ & -> & _)]]]; [apply early_comp|by apply Hm..|].
  assert (s_height (moved_full stt s) = st_height stt) as Eh by (unfold moved_full; by destruct (st_interval stt)).
  assert (s_votes (moved_full stt s) = vop_run (vop_run (s_votes s) (VFlush (st_height stt - 1))) (VTake (st_height stt))) as Ev
    by (unfold moved_full; by destruct (st_interval stt)).
  assert (s_props (moved_full stt s) = pop_run (pop_run (s_props s) (PFlush (st_height stt - 1))) (PTake (st_height stt))) as Ep
    by (unfold moved_full; by destruct (st_interval stt)).
  split; [lia|]. rewrite Eh. intros h rd Hh. assert (st_height stt < h) as Hh' by lia. split_and!.
  - intros t a v Hv. unfold fvote. rewrite Ev, !vs_of_step.
    destruct (N.eqb_spec h (st_height stt)); [lia|]. destruct (N.ltb_spec h (st_height stt - 1)); [lia|]. exact Hv.
  - intros t [q Hq]. exists q. rewrite get_qc_rnd in Hq |- *. rewrite Ev. cbn [vop_run]. rewrite rnd_take, rnd_flush.
    rewrite !decide_False by lia. exact Hq.
  - intros sp Hsp. rewrite Ep, !pget_step. simpl.
    destruct (N.eqb_spec h (st_height stt)); [lia|]. destruct (N.ltb_spec h (st_height stt - 1)); [lia|]. exact Hsp.
Qed.
Local Hint Resolve early_goto : keepsdb.
Lemma early_hsp e sp : keeps earlyR (handle_signed_proposal lc e sp).
Proof.
  clear tenc tdec spill cr. intros s s' o r Hp. apply hsp_inv in Hp as [(-> & _)|[(_ & _ & _ & -> & _)|(_ & _ & _ & _ & -> & _)]]; [by apply early_same|..];
    by eapply early_prop.
Qed.
Local Hint Resolve early_hsp : keepsdb.
Ltac early_fin := first [by apply early_same|
  match goal with
  | |- earlyR _ _ (set_s_votes (vc_insert_vote _ _ ?v _) _) => by apply (early_op _ _ _ (VVote v))
  | |- earlyR _ _ (set_s_votes (vc_set_qc _ ?q) _) => by apply (early_op _ _ _ (VQC q))
  end|idtac].
Lemma early_own e hash t lr : keeps earlyR (handle_vote_event (T:=T) e hash t lr).
Proof.
  clear lc tenc tdec spill cr. assert (keeps earlyR (vote_process (T:=T) e t)) as Hvp by (keeps_go early_comp; intros; early_fin).
  intros s s' o r Hv. apply vote_event_inv in Hv as [(-> & -> & _)|(sig & lk & _ & _ & [(_ & -> & -> & _)|(_ & o2 & Hv)])]; [apply early_comp|by apply early_same|].
  destruct (s_leader s); destruct Hv as [_ Hv]; apply Hvp in Hv; [|exact Hv].
  apply (comp_app _ early_comp s (with_vote (own_vote sig t hash s) s) s' [] o2); [|exact Hv]. by apply (early_op _ _ _ (VVote (own_vote sig t hash s))).
Qed.
Local Hint Resolve early_own : keepsdb.
Lemma early_react e i : keeps earlyR (react lc tenc e i).
Proof.
  clear tdec spill cr. apply (keeps_react _ _ _ early_comp).
  - intros m ->. apply (keeps_on_msg _ _ early_comp); [intros; by apply early_same|]. keeps_go early_comp; intros; early_fin.
  - intros m _. keeps_go early_comp; intros; early_fin.
  - intros m _. keeps_go early_comp; intros; early_fin.
  - intros ev ->. destruct ev; keeps_go early_comp; intros; early_fin.
    case_match; by apply early_same.
Qed.
Lemma early_since b cfg log n e i s o r :
  noderun b cfg log n -> NState e i s o r ∈ log -> exists s' o', react lc tenc e i s = (s', o, r) /\ earlyR s' o' (nd_st n).
Proof.
  induction 1 as [n log Hs|log n l0 n' log' Hr IH Hs]; intros Hin.
  - unfold nstart in Hs. destruct (on_start _ _ _ _ _ _) as [[s0 o0] r0]. injection Hs as <- <-. by apply elem_of_list_singleton in Hin.
  - apply elem_of_app in Hin as [Hin|Hin].
    + destruct (IH Hin) as (s' & o' & H1 & H2). apply nstep_cases in Hs as [(e1 & i1 & s1 & o1 & r1 & Es & Hrr & -> & _)|(-> & _)]; [|by exists s', o'].
      exists s', (o' ++ o1). split; [done|]. eapply (comp_app _ early_comp); [exact H2|]. by eapply early_react.
    + apply nstep_cases in Hs as [(e1 & i1 & s1 & o1 & r1 & Es & Hrr & -> & _ & ->)|(_ & _ & Hi & _)].
      * apply elem_of_list_singleton in Hin. injection Hin as -> -> -> -> ->. exists s1, []. split; [done|apply early_comp].
      * exfalso. assert ((e, i) ∈ inputs log') as Hx; [|rewrite Hi in Hx; by apply elem_of_nil in Hx].
        unfold inputs. apply elem_of_list_omap. by exists (NState e i s o r).
Qed.
(** ** A message that comes early is stored *)
(** A message for a height that is yet to come, inside the window that the instance accepts, and by
    the leader of its round (a proposal) or a validator (a vote), as the list in force now says. *)
Definition ahead (m : omsg T) (s : st T) : Prop :=
  s_power s = true /\
  match m with
  | MProposal sp =>
      let p := sp_prop sp in
      s_height s < p_height p <= s_height s + FUTURE_HEIGHT_GAP /\ p_round p <= FUTURE_ROUND_GAP /\
      get_proposer lc (s_auth s) (p_height p) (p_round p) = Ok (p_proposer p) /\ auth_contains (s_auth s) (p_proposer p) = true
  | MVote v =>
      s_height s < v_height (sv_vote v) <= s_height s + FUTURE_HEIGHT_GAP /\ v_round (sv_vote v) <= FUTURE_ROUND_GAP /\
      auth_contains (s_auth s) (sv_voter v) = true
  | MAgg q => s_height s < av_height q < s_height s + FUTURE_HEIGHT_GAP /\ av_round q < FUTURE_ROUND_GAP
  | _ => False
  end.
(** [m'] takes the place of [m]: it is about the same thing and the instance keeps one of a kind. *)
Definition stands_for (m' m : omsg T) : Prop :=
  match m, m' with
  | MProposal a, MProposal b => p_height (sp_prop b) = p_height (sp_prop a) /\ p_round (sp_prop b) = p_round (sp_prop a)
  | MVote a, MVote b => sv_voter b = sv_voter a /\ v_height (sv_vote b) = v_height (sv_vote a) /\
      v_round (sv_vote b) = v_round (sv_vote a) /\ v_type (sv_vote b) = v_type (sv_vote a)
  | MVote a, MAgg q => av_height q = v_height (sv_vote a) /\ av_round q = v_round (sv_vote a) /\ av_type q = v_type (sv_vote a)
  | MAgg a, MAgg q => av_height q = av_height a /\ av_round q = av_round a /\ av_type q = av_type a
  | _, _ => False
  end.
(** The instance holds [m] in its caches. *)
Definition cached_msg (s : st T) (m : omsg T) : Prop :=
  match m with
  | MProposal sp => exists sp', pget (s_props s) (p_height (sp_prop sp)) (p_round (sp_prop sp)) = Some sp'
  | MVote v => has_qc s (v_height (sv_vote v)) (v_round (sv_vote v)) (v_type (sv_vote v)) \/
      exists w, fvote s (v_height (sv_vote v)) (v_round (sv_vote v)) (v_type (sv_vote v)) (sv_voter v) = Some w
  | MAgg q => has_qc s (av_height q) (av_round q) (av_type q)
  | _ => False
  end.
Lemma later_kept (s : st T) h r : s_height s < h <= s_height s + FUTURE_HEIGHT_GAP -> r <= FUTURE_ROUND_GAP -> s_height s + FUTURE_HEIGHT_GAP < 2 ^ 64 ->
  filter_message s h r = false.
Proof.
  clear lc tenc tdec spill cr. intros H1 H2 H3. unfold filter_message. rewrite (w64_small (s_height s + _)) by (unfold U64; lia).
  destruct (N.ltb_spec h (s_height s)); [lia|]. destruct (N.eqb_spec h (s_height s)); [lia|].
  destruct (N.ltb_spec (s_height s + FUTURE_HEIGHT_GAP) h); [lia|]. destruct (N.ltb_spec FUTURE_ROUND_GAP r); [lia|].
  by rewrite andb_false_r.
Qed.
Lemma has_qc_set (s : st T) q : has_qc (set_s_votes (vc_set_qc (s_votes s) q) s) (av_height q) (av_round q) (av_type q).
Proof.
  clear lc tenc tdec spill cr. exists q. rewrite get_qc_rnd. cbn [s_votes set_s_votes]. rewrite rnd_qc, decide_True by done.
  unfold rc_set_qc, qcpair_set. by destruct (av_type q).
Qed.
Lemma early_stored e m s s' o r :
  react lc tenc e (IMsg m) s = (s', o, r) -> ahead m s -> s_height s + FUTURE_HEIGHT_GAP < 2 ^ 64 -> s_height s' = s_height s /\ cached_msg s' m.
Proof.
  clear tdec spill cr. intros Hr [Hp He] Hlt. destruct m as [sp|v|q|sc|stt|]; try done.
  all: eapply react_core in Hr; [|reflexivity]; destruct Hr as [(Hsk & _)|(_ & r' & Hr & _)]; [exfalso; destruct Hsk as [[? _]|[_ [? ?]]]; [congruence|done]|].
  - destruct He as (H1 & H2 & H3 & H4). pose proof (later_kept s _ _ H1 H2 Hlt) as Hf.
    apply hsp_inv in Hr as [(_ & _ & Hr)|[(_ & _ & _ & -> & _)|(_ & _ & Eh & _)]]; [|..|lia].
    { destruct Hr as [Hr _]; [by split|]. congruence. }
    split; [done|]. cbn [cached_msg]. cbn [s_props set_s_props].
    change (pc_insert (s_props s) ?a ?b ?c).1 with (pop_run (s_props s) (PInsert a b c)). rewrite pget_step. simpl. rewrite !N.eqb_refl. simpl.
    destruct (pget _ _ _) as [sp'|]; eauto.
  - destruct He as (H1 & H2 & H4). pose proof (later_kept s _ _ H1 H2 Hlt) as Hf.
    unfold handle_signed_vote, get in Hr. cbv zeta in Hr. rewrite Hf in Hr.
    unfold bind at 1, verify_address, get in Hr. rewrite H4 in Hr. unfold ret at 1 in Hr.
    destruct (is_ok _) eqn:Eq.
    + unfold ret in Hr. injection Hr as <- _ _. split; [done|]. left. unfold has_qc. destruct (vc_get_qc_by_id _ _ _ _); [by eexists|done..].
    + destruct (N.ltb_spec (s_height s) (v_height (sv_vote v))); [|lia]. unfold bind, modify, ret in Hr. fold (with_vote v s) in Hr. injection Hr as <- _ _.
      split; [done|]. right. destruct (fvote_with v s) as (w & Hw & _). by exists w.
  - destruct He as (H1 & H2). unfold handle_aggregated_vote, get in Hr.
    destruct (N.ltb_spec (av_height q) (s_height s)); [lia|]. destruct (N.ltb_spec (s_height s) (av_height q)); [|lia].
    rewrite w64_small in Hr by (unfold U64; lia).
    destruct (N.ltb_spec (av_height q) (s_height s + FUTURE_HEIGHT_GAP)); [|lia]. destruct (N.ltb_spec (av_round q) FUTURE_ROUND_GAP); [|lia].
    cbn [andb] in Hr. unfold modify in Hr. injection Hr as <- _ _. split; [done|]. apply has_qc_set.
Qed.
Lemma stored_kept m h s o s' : earlyR s o s' -> msg_height m = Ok h -> s_height s' < h -> cached_msg s m -> cached_msg s' m.
Proof.
  clear lc tenc tdec spill cr. intros [_ HR] Em Hh Hs.
  destruct m as [sp|v|q|sc|stt|]; try done; simpl in Em; injection Em as <-; cbn [cached_msg] in *.
  - destruct Hs as [sp' Hs]. exists sp'. by apply HR; [left|].
  - destruct Hs as [Hs|[w Hs]]; [left|right; exists w]; (eapply HR; [left; done|done]).
  - eapply HR; [left; done|done].
Qed.
(** Everything stored for the new height is verified again. *)
Lemma stored_reverified (s : st T) stt m vo po :
  s_votes s = vops vo -> s_props s = pops po -> (forall h r sp, PInsert h r sp ∈ po -> h = p_height (sp_prop sp) /\ r = p_round (sp_prop sp)) ->
  msg_height m = Ok (st_height stt) -> cached_msg s m -> exists m', stands_for m' m /\ m' ∈ goto_reverify stt s /\
    match m' with
    | MProposal sp => PInsert (p_height (sp_prop sp)) (p_round (sp_prop sp)) sp ∈ po
    | MVote v => VVote v ∈ vo
    | MAgg q => VQC q ∈ vo
    | _ => False
    end.
Proof.
  clear lc tenc tdec spill cr. intros Ev Ep Hpo Em Hs. set (h := st_height stt) in *.
  assert (forall rd t, has_qc s h rd t -> exists q, av_height q = h /\ av_round q = rd /\ av_type q = t /\ MAgg q ∈ goto_reverify stt s /\ VQC q ∈ vo) as Hqc.
  { intros rd t [q Hq]. exists q. pose proof Hq as Hq'. rewrite Ev, get_qc_rnd, vops_qc_id in Hq'.
    destruct (last_qc _ _ _) as [q'|] eqn:E; [|done]. injection Hq' as ->.
    pose proof E as E'. apply last_qc_sel in E' as (E0 & [E1 E2]%andb_true_iff & E3). apply N.eqb_eq in E1. apply bool_decide_eq_true in E2.
    split_and!; [done..| |exact E3].
    unfold vc_get_qc_by_id, vc_round in Hq. destruct (s_votes s !! h) as [vrc|] eqn:Ec; [|done]. simpl in Hq.
    destruct (vc_general vrc !! rd) as [rc|] eqn:Er; [|done]. simpl in Hq.
    unfold goto_reverify. apply elem_of_app. right. unfold kept_votes, vc_flush, vc_take_height. cbn [snd].
    rewrite split_off_lookup, decide_False by (fold h; lia). fold h. rewrite Ec. simpl. apply elem_of_app. right.
    apply elem_of_list_fmap. exists q. split; [done|]. apply elem_of_list_bind. exists rc. split; [|apply values_elem; by exists rd].
    unfold qcpair_all. destruct t; simpl in Hq.
    - destruct (qp_prevote (rc_qc rc)); [|done]. injection Hq as ->. set_solver.
    - destruct (qp_precommit (rc_qc rc)); [|done]. injection Hq as ->. set_solver. }
  destruct m as [sp|v|q|sc|st0|]; try done; simpl in Em; injection Em as Em; cbn [cached_msg] in Hs.
  - rewrite Em in Hs. destruct Hs as [sp' Hsp]. pose proof Hsp as Hsp'. rewrite Ep in Hsp'. unfold pops in Hsp'.
    apply pget_foldl in Hsp' as [Hx|Hin]; [unfold pget in Hx; by rewrite lookup_empty in Hx|]. pose proof (Hpo _ _ _ Hin) as [E1 E2].
    exists (MProposal sp'). split; [split; congruence|]. split; [|by rewrite <-E1, <-E2].
    unfold goto_reverify. apply elem_of_app. left. apply elem_of_list_fmap. exists sp'. split; [done|].
    unfold pget in Hsp. destruct (s_props s !! h) as [rc|] eqn:Ec; [|done]. simpl in Hsp.
    unfold kept_props, pc_flush, pc_take_height. cbn [snd]. rewrite split_off_lookup, decide_False by (fold h; lia). fold h. rewrite Ec. simpl.
    apply values_elem. by eexists.
  - rewrite Em in Hs. destruct Hs as [Hs|[w Hw]].
    + destruct (Hqc _ _ Hs) as (q & E1 & E2 & E3 & Hin & Hvo). exists (MAgg q). split_and!; [simpl; split_and!; congruence|done|done].
    + destruct (fvote_addr _ _ _ _ _ _ _ Ev Hw) as (E1 & E2 & E3 & E4). exists (MVote w).
      split; [simpl; split_and!; congruence|]. split.
      2: { unfold fvote in Hw. rewrite Ev, vops_first_vote in Hw. by apply first_vote_in in Hw. }
      unfold fvote, vs_of, rnd, vc_round in Hw. destruct (s_votes s !! h) as [vrc|] eqn:Ec.
      2: { simpl in Hw. destruct (v_type (sv_vote v)); simpl in Hw; by rewrite lookup_empty in Hw. }
      simpl in Hw. destruct (vc_general vrc !! _) as [rc|] eqn:Er.
      2: { simpl in Hw. destruct (v_type (sv_vote v)); simpl in Hw; by rewrite lookup_empty in Hw. }
      simpl in Hw. unfold goto_reverify. apply elem_of_app. right. unfold kept_votes, vc_flush, vc_take_height. cbn [snd].
      rewrite split_off_lookup, decide_False by (fold h; lia). fold h. rewrite Ec. simpl. apply elem_of_app. left.
      apply elem_of_list_fmap. exists w. split; [done|]. apply elem_of_list_bind. exists rc. split; [|apply values_elem; by eexists].
      apply elem_of_app. destruct (v_type (sv_vote v)); [left|right]; apply values_elem; by eexists.
  - rewrite Em in Hs. destruct (Hqc _ _ Hs) as (q' & E1 & E2 & E3 & Hin & Hvo). exists (MAgg q'). split_and!; [simpl; split_and!; congruence|done|done].
Qed.

(** ** Specification *)
(** The state module was given [m]. *)
Definition came (log : list (nlog T)) (m : omsg T) : Prop := exists e s o r, NState e (IMsg m) s o r ∈ log.
Lemma received_came log m : received (inputs log) (IMsg m) -> came log m.
Proof.
  clear lc tenc tdec spill cr. intros [e Hv]. unfold inputs in Hv. apply elem_of_list_omap in Hv as (x & Hx & E).
  destruct x as [| |e0 i s o r0| | | | | |]; try done. injection E as -> ->. by exists e, s, o, r0.
Qed.

(** C61. A proposal, a vote or a certificate for a height that is yet to come, inside the window, is not
    lost: in the very step in which the instance, being a validator there, enters that height and
    records it, the message is sent to verification again, under the list that the status gives for
    the new height; or another message that is about the same thing and that the instance had before is. *)
Theorem C61_early_messages_wait_for_their_height :
  forall b cfg log n l1 e i s o r m h,
    noderun b cfg log n -> log = l1 ++ [NState e i s o r] ->
    (exists e0 s0 o0 r0, NState e0 (IMsg m) s0 o0 r0 ∈ l1 /\ ahead m s0 /\ s_height s0 + FUTURE_HEIGHT_GAP < 2 ^ 64) ->
    msg_height m = Ok h -> s_height s < h -> s_height (nd_st n) = h -> s_power (nd_st n) = true -> (forall w, ASave w false ∉ o) ->
    exists m' stt, adopts e i o stt /\ st_height stt = h /\ s_auth (nd_st n) = auth_update (st_auth stt) /\
      AVerify (auth_update (st_auth stt)) m' ∈ o /\ stands_for m' m /\
      match m' with
      | MAgg q => qc_known tdec spill (boot_at b) (inputs l1) (actions l1) q
      | _ => came l1 m'
      end.
Proof.
  intros b cfg log n l1 e i s o r m h Hrun -> (e0 & s0 & o0 & r0 & Hin & He & Hw) Em Hlt Hh Hp Hsv.
  assert (exists n1 lb, noderun b cfg l1 n1 /\ nstep lc tenc cr lb n1 = Some (n, [NState e i s o r])) as (n1 & lb & Hr & Hs).
  { remember (l1 ++ [NState e i s o r]) as log eqn:El. destruct Hrun as [n log Hs|log n lb n' log' Hr Hs].
    - exfalso. unfold nstart in Hs. destruct (on_start _ _ _ _ _ _) as [[s1 o1] r1]. injection Hs as <- <-.
      destruct l1 as [|? [|]]; [by apply elem_of_nil in Hin|done..].
    - assert (exists y, log' = [y]) as [y ->] by (apply nstep_inv in Hs; destruct Hs; subst; eauto).
      apply app_inj_tail in El as [-> ->]. eauto. }
  apply nstep_cases in Hs as [(e1 & i1 & s' & o1 & r1 & _ & Hre & Es' & _ & E)|(_ & _ & Hi & _)]; [|done].
  injection E as Ee <- Es0 <- <-. subst e s. rewrite Es' in *. set (s := nd_st n1) in *. set (e := env_at n1 e1) in *.
  destruct (early_since _ _ _ _ _ _ _ _ _ Hr Hin) as (s2 & o2 & Hre0 & Hkept).
  destruct (early_stored _ _ _ _ _ _ Hre0 He Hw) as [_ Hst2].
  pose proof (stored_kept _ _ _ _ _ Hkept Em Hlt Hst2) as Hst. fold s in Hst. clear Hst2 Hkept Hre0.
  pose proof (noderun_run _ _ _ _ _ _ _ _ _ Hr) as Hrun1. apply run_run_inv in Hrun1 as [(vo & Evo & Fvo) (po & Epo & Fpo) _ _ _ _]. fold s in Evo, Epo.
  pose proof (react_shape _ _ _ _ _ _ _ _ Hre) as Hsh. destruct Hsh as [m0 _ -> _|_ (_ & _ & S3 & _) _|stt s1 oa ob rb Hg Eo (_ & _ & S3 & _) Ev1 Ep1 _ Had].
  1-2: exfalso; lia.
  apply goto_inv in Hg as [(Hle & -> & _)|[(_ & Hic & -> & _)|[(_ & _ & _ & Eo2 & _)|(Hlt1 & _ & -> & tr & Eo2 & _)]]].
  - exfalso. lia.
  - simpl in Hp. congruence.
  - exfalso. eapply Hsv. rewrite Eo, Eo2. apply elem_of_app. right. by apply elem_of_list_singleton.
  - assert (st_height stt = h) as Eh by (rewrite <-Hh; unfold moved_full; by destruct (st_interval stt)).
    assert (cached_msg s1 m) as Hst1.
    { revert Hst. destruct m; try done; cbn [cached_msg]; unfold fvote, has_qc; by rewrite ?Ev1, ?Ep1. }
    rewrite <-Ev1 in Evo. rewrite <-Ep1 in Epo.
    destruct (stored_reverified s1 stt m vo po Evo Epo) as (m' & Hsf & Hrv & Hpv); [|congruence|done|].
    { intros h' r' sp Hsp. apply (proj1 (Forall_forall _ _) Fpo) in Hsp as (A & B & _). done. }
    exists m', stt. split_and!; try done.
    + unfold moved_full. by destruct (st_interval stt).
    + rewrite Eo, Eo2. apply elem_of_app. right. right. apply elem_of_app. left. apply elem_of_list_fmap. by exists m'.
    + destruct m' as [sp|v|q| | |]; try done.
      * apply (proj1 (Forall_forall _ _) Fpo) in Hpv as (_ & _ & Hc). by apply received_came.
      * apply (proj1 (Forall_forall _ _) Fvo) in Hpv as [Hc|Hc]; [by apply received_came|]. exfalso.
        destruct (action_entry lc tenc tdec spill cr _ _ _ _ _ Hr Hc) as (e3 & i3 & s3 & o3 & r3 & Hin3 & Ho3).
        destruct (early_since _ _ _ _ _ _ _ _ _ Hr Hin3) as (s4 & o4 & Hre3 & [Hmono _]).
        destruct (own_step lc tenc _ _ _ _ _ _ _ Hre3 Ho3) as (Eh3 & _).
        assert (s_height s3 <= s_height s4) as Hm3 by (apply early_react in Hre3 as [? _]; done).
        assert (v_height (sv_vote v) = h) as Ev3.
        { destruct m as [| v0 | | | |]; try done. simpl in Em. injection Em as Em. destruct Hsf as (_ & Hx & _). congruence. }
        fold s in Hmono. lia.
      * by apply (proj1 (Forall_forall _ _) Fvo) in Hpv.
Qed.

(** ** Proposals of later rounds *)
Lemma new_prop e i s s' o r po h rd sp :
  s_props s = pops po -> (forall h r sp, PInsert h r sp ∈ po -> h = p_height (sp_prop sp) /\ r = p_round (sp_prop sp)) ->
  react lc tenc e i s = (s', o, r) -> pget (s_props s') h rd = Some sp ->
  pget (s_props s) h rd = Some sp \/
  (i = IMsg (MProposal sp) /\ h = p_height (sp_prop sp) /\ rd = p_round (sp_prop sp) /\ verified lc s (sp_prop sp)).
Proof.
  clear tdec spill cr. intros Ep Hpo Hr Hs0. pose proof (propsR_react lc tenc e i _ _ _ _ Hr) as (ops & E1 & F).
  pose proof Hs0 as Hs. rewrite E1 in Hs.
  apply pget_foldl in Hs as [Hs|Hs]; [by left|]. apply (proj1 (Forall_forall _ _) F) in Hs as (-> & -> & [->|(h' & r' & Hs)]).
  - eapply react_core in Hr; [|reflexivity]; destruct Hr as [(_ & -> & _)|(_ & r' & Hr & _)]; [by left|].
    apply hsp_inv in Hr as [(-> & _)|[(Hv & _)|(Hv & _)]]; [by left|right; by split_and!..].
  - left. pose proof Hs as Hs'. rewrite Ep in Hs'. unfold pops in Hs'. apply pget_foldl in Hs' as [Hx|Hin].
    + unfold pget in Hx. by rewrite lookup_empty in Hx.
    + apply Hpo in Hin as [-> ->]. done.
Qed.
(** Every stored proposal for the current height came and is by the leader of its round. *)
Definition by_leaders (l : list vnode) (log : list (nlog T)) (s : st T) : Prop :=
  forall rd sp, pget (s_props s) (s_height s) rd = Some sp ->
    came log (MProposal sp) /\ p_height (sp_prop sp) = s_height s /\ p_round (sp_prop sp) = rd /\
    get_proposer lc (auth_update l) (s_height s) rd = Ok (p_proposer (sp_prop sp)).
Lemma noderun_props b cfg log n l :
  noderun b cfg log n -> s_power (nd_st n) = true -> (forall w, ASave w false ∉ actions log) ->
  in_force_at l (s_height (nd_st n)) log -> by_leaders l log (nd_st n).
Proof.
  intros Hr Hpw Hsv Hf. induction Hr as [n log Hs|log n l0 n' log' Hr IH Hs].
  - intros rd sp Hsp. assert (run_inv tdec spill (boot_at b) (inputs log) (actions log) (nd_st n)) as [_ (po & Epo & Fpo) _ _ _ _].
    { eapply run_run_inv, (noderun_run lc tenc tdec spill cr). by constructor. }
    rewrite Epo in Hsp. unfold pops in Hsp. apply pget_foldl in Hsp as [Hx|Hin]; [unfold pget in Hx; by rewrite lookup_empty in Hx|].
    apply (proj1 (Forall_forall _ _) Fpo) in Hin as (_ & _ & [e0 Hin]).
    unfold nstart in Hs. destruct (on_start _ _ _ _ _ _) as [[s o] r0]. injection Hs as <- <-. by apply elem_of_nil in Hin.
  - assert (forall w, ASave w false ∉ actions log) as Hsv0 by (intros w Hw; apply (Hsv w); rewrite actions_app; set_solver).
    assert (forall w, ASave w false ∉ actions log') as Hsv1 by (intros w Hw; apply (Hsv w); rewrite actions_app; set_solver).
    assert (s_height (nd_st n') = s_height (nd_st n) -> in_force_at l (s_height (nd_st n)) log) as Hf0.
    { intros E e i s o r Hin Hh. eapply Hf; [apply elem_of_app; by left|congruence]. }
    assert (forall m, came log m -> came (log ++ log') m) as Hcame.
    { intros m (e & s & o & r & Hin). exists e, s, o, r. apply elem_of_app. by left. }
    assert (run_inv tdec spill (boot_at b) (inputs log) (actions log) (nd_st n)) as [_ (po & Epo & Fpo) _ _ _ _].
    { by eapply run_run_inv, (noderun_run lc tenc tdec spill cr). }
    assert (forall h r sp, PInsert h r sp ∈ po -> h = p_height (sp_prop sp) /\ r = p_round (sp_prop sp)) as Hpo.
    { intros h r sp Hin. apply (proj1 (Forall_forall _ _) Fpo) in Hin as (A & B & _). done. }
    apply nstep_cases in Hs as [(e & i & s & o & r & Es & Hrr & Es' & Hpop & ->)|(Es & _)].
    2: { unfold by_leaders in *. rewrite Es in *. intros rd sp Hsp. destruct (IH Hpw Hsv0 (Hf0 eq_refl) rd sp Hsp) as (A & B). split; [by apply Hcame|done]. }
    unfold by_leaders in *. rewrite Es' in *. set (e0 := env_at n e) in *.
    pose proof Hrr as Hrr0.
    apply react_shape in Hrr as [m -> -> _|_ (S1 & S2 & S3 & S4) _|stt s1 o1 o2 r1 Hg Eo (Hn & _ & Eh & Epw) Ev Epp Ecc Hadp].
    + intros rd sp Hsp. destruct (IH Hpw Hsv0 (Hf0 eq_refl) rd sp Hsp) as (A & B). split; [by apply Hcame|done].
    + rewrite S3, S4 in *. intros rd sp Hsp. specialize (IH Hpw Hsv0 (Hf0 eq_refl)).
      destruct (new_prop _ _ _ _ _ _ _ _ _ _ Epo Hpo Hrr0 Hsp) as [Hx|(-> & E1 & E2 & _ & Hg)].
      * destruct (IH rd sp Hx) as (A & B). split; [by apply Hcame|done].
      * split; [do 4 eexists; apply elem_of_app; right; by apply elem_of_list_singleton|]. split_and!; [done..|].
        rewrite E1, E2. erewrite <-Hf; [exact Hg|apply elem_of_app; right; by apply elem_of_list_singleton|done].
    + apply goto_inv in Hg as [(_ & -> & _)|[(_ & Hic & -> & _)|[(_ & _ & _ & Eo2 & _)|(_ & _ & -> & _)]]].
      * rewrite Epp, Eh in *. intros rd sp Hsp. destruct (IH ltac:(congruence) Hsv0 (Hf0 eq_refl) rd sp Hsp) as (A & B). split; [by apply Hcame|done].
      * simpl in Hpw. congruence.
      * exfalso. eapply Hsv1. unfold actions. simpl. rewrite app_nil_r, Eo, Eo2. apply elem_of_app. right. by apply elem_of_list_singleton.
      * destruct (moved_full_none stt s1) as (_ & Hpn & _ & Hhh). intros rd sp. rewrite Hhh. unfold pget. rewrite Hpn. done.
Qed.
(** A proposal by the leader of a round from the current one on, inside the window. *)
Definition timely_proposal (l : list vnode) (sp : sproposal T) (s : st T) : Prop :=
  s_power s = true /\ p_height (sp_prop sp) = s_height s /\ s_round s <= p_round (sp_prop sp) <= s_round s + FUTURE_ROUND_GAP /\
  get_proposer lc (auth_update l) (p_height (sp_prop sp)) (p_round (sp_prop sp)) = Ok (p_proposer (sp_prop sp)).
(** The instance asks for the check of the block of [sp] and tells the state machine. *)
Definition taken (o : list (action T)) (sp : sproposal T) : Prop :=
  let p := sp_prop sp in
  ACheck (p_height p) (p_round p) (p_hash p) (p_content p) ∈ o /\
  ATrigger (mk_trigger TProposal (p_hash p) (pl_round <$> p_lock p) (p_round p) (p_height p)) ∈ o.
(** The leader of the round sent no other proposal for it. *)
Definition the_only (log : list (nlog T)) (sp : sproposal T) : Prop :=
  forall sp', came log (MProposal sp') -> p_height (sp_prop sp') = p_height (sp_prop sp) -> p_round (sp_prop sp') = p_round (sp_prop sp) ->
    p_proposer (sp_prop sp') = p_proposer (sp_prop sp) -> sp' = sp.
Lemma timely_prop_kept (s : st T) h r : h = s_height s -> s_round s <= r <= s_round s + FUTURE_ROUND_GAP -> far_from_end s -> filter_message s h r = false.
Proof.
  clear lc tenc tdec spill cr. intros -> H1 H2. 
  apply (timely_kept (mkSVote [] (mkVote (s_height s) r Prevote []) []) s); [by split|done].
Qed.
Lemma hsp_fwd (e : env T) (sp : sproposal T) (s : st T) :
  verified lc s (sp_prop sp) -> filter_message s (p_height (sp_prop sp)) (p_round (sp_prop sp)) = false ->
  p_height (sp_prop sp) = s_height s -> p_round (sp_prop sp) = s_round s ->
  (pc_insert (s_props s) (p_height (sp_prop sp)) (p_round (sp_prop sp)) sp).2 = Ok tt -> (forall t, e_trigger e t = true) ->
  exists s' r, handle_signed_proposal lc e sp s = (s',
    [ATrigger (mk_trigger TProposal (p_hash (sp_prop sp)) (pl_round <$> p_lock (sp_prop sp)) (p_round (sp_prop sp)) (p_height (sp_prop sp)));
     ACheck (p_height (sp_prop sp)) (p_round (sp_prop sp)) (p_hash (sp_prop sp)) (p_content (sp_prop sp))], r).
Proof.
  clear tenc tdec spill cr. intros [Hv1 Hv2] Hf Eh Er Hok Ht. unfold handle_signed_proposal.
  unfold bind at 1, verify_proposer, verify_address, get at 1, bind at 1. rewrite Hv1. unfold ret at 1, get at 1, bind at 1, lift at 1. rewrite Hv2. rewrite decide_True by done. unfold ret at 1.
  unfold filter_signed_proposal, bind at 1, get at 1. rewrite Hf, Eh, Er, !N.eqb_refl, N.ltb_irrefl. cbn [negb andb orb].
  unfold ret at 1. unfold bind, modify, get, props_insert, lift, trigger_smr, check_block, get, emit, fail.
  cbn [s_props s_height s_round set_s_blocks]. rewrite Eh, Er in Hok.
  destruct (pc_insert (s_props s) (s_height s) (s_round s) sp) as [pc rr] eqn:Ei. simpl in Hok. subst rr. rewrite Ht. simpl. eauto.
Qed.
Lemma hsp_taken e sp l s s' o r :
  handle_signed_proposal lc e sp s = (s', o, r) -> s_auth s = auth_update l -> timely_proposal l sp s -> far_from_end s ->
  (forall sp', pget (s_props s) (p_height (sp_prop sp)) (p_round (sp_prop sp)) = Some sp' -> sp' = sp) ->
  (forall t, e_trigger e t = true) ->
  pget (s_props s') (p_height (sp_prop sp)) (p_round (sp_prop sp)) = Some sp /\
  (p_round (sp_prop sp) = s_round s -> taken o sp).
Proof.
  clear tenc tdec spill cr. intros Hr Ea (_ & Eh & Er & Hg) Hf Ho Ht.
  assert (verified lc s (sp_prop sp)) as Hv.
  { split; rewrite Ea; [|done]. apply auth_contains_spec. by eapply get_proposer_in. }
  pose proof (timely_prop_kept s _ _ Eh Er Hf) as Hk.
  assert (pget (pc_insert (s_props s) (p_height (sp_prop sp)) (p_round (sp_prop sp)) sp).1 (p_height (sp_prop sp)) (p_round (sp_prop sp)) = Some sp) as Hst.
  { change (pc_insert (s_props s) ?a ?b ?c).1 with (pop_run (s_props s) (PInsert a b c)). rewrite pget_step. simpl. rewrite !N.eqb_refl. simpl.
    destruct (pget _ _ _) as [sp'|] eqn:E; [|done]. by rewrite (Ho sp'). }
  pose proof Hr as Hr0.
  apply hsp_inv in Hr as [(_ & _ & Hr)|[(_ & _ & Hne & -> & -> & _)|(_ & _ & _ & E2 & -> & _)]].
  - destruct (Hr Hv) as [Hx _]. congruence.
  - split; [exact Hst|]. intros E. exfalso. destruct Hne as [[_ Hx]|Hx]; [done|lia].
  - split; [exact Hst|]. intros _.
    assert (match pget (s_props s) (p_height (sp_prop sp)) (p_round (sp_prop sp)) with
            | Some p' => if decide (p' = sp) then Ok tt else Err (EMultiProposal (p_height (sp_prop sp)) (p_round (sp_prop sp)))
            | None => Ok tt end = Ok tt) as Hok.
    { destruct (pget _ _ _) as [sp'|] eqn:E; [|done]. by rewrite decide_True by (by apply Ho). }
    rewrite <-pc_insert_result in Hok.
    destruct (hsp_fwd e sp s Hv Hk Eh E2 Hok Ht) as (s1 & r1 & Hfw). rewrite Hfw in Hr0. injection Hr0 as _ <- _. split; set_solver.
Qed.
Lemma timely_stored e sp l s s' o r :
  react lc tenc e (IMsg (MProposal sp)) s = (s', o, r) -> s_auth s = auth_update l -> timely_proposal l sp s -> far_from_end s ->
  exists sp', pget (s_props s') (p_height (sp_prop sp)) (p_round (sp_prop sp)) = Some sp'.
Proof.
  clear tdec spill cr. intros Hr Ea (Hp & Eh & Er & Hg) Hf.
  assert (verified lc s (sp_prop sp)) as Hv.
  { split; rewrite Ea; [|done]. apply auth_contains_spec. by eapply get_proposer_in. }
  pose proof (timely_prop_kept s _ _ Eh Er Hf) as Hk.
  assert (exists sp', pget (pc_insert (s_props s) (p_height (sp_prop sp)) (p_round (sp_prop sp)) sp).1 (p_height (sp_prop sp)) (p_round (sp_prop sp)) = Some sp') as Hst.
  { change (pc_insert (s_props s) ?a ?b ?c).1 with (pop_run (s_props s) (PInsert a b c)). rewrite pget_step. simpl. rewrite !N.eqb_refl. simpl.
    destruct (pget _ _ _) as [sp'|] eqn:E; eauto. }
  eapply react_core in Hr; [|reflexivity]; destruct Hr as [(Hsk & _)|(_ & r' & Hr & _)]; [exfalso; destruct Hsk as [[? _]|[_ [? ?]]]; [congruence|done]|].
  apply hsp_inv in Hr as [(_ & _ & Hr)|[(_ & _ & _ & -> & _)|(_ & _ & _ & _ & -> & _)]]; [|exact Hst..].
  destruct (Hr Hv) as [Hx _]. congruence.
Qed.

(** C56. When the state module is given the proposal of the leader of the current round, the leader sent
    no other one, and the list [l] is in force, the block goes to be checked and the state machine
    hears of the proposal. *)
Theorem C56_timely_proposals_are_taken :
  forall b cfg log n l1 e sp s o r l2 l,
    noderun b cfg log n -> log = (l1 ++ [NState e (IMsg (MProposal sp)) s o r]) ++ l2 ->
    let now := l1 ++ [NState e (IMsg (MProposal sp)) s o r] in
    (forall w, ASave w false ∉ actions now) -> in_force_at l (s_height s) now -> far_from_end s ->
    timely_proposal l sp s -> p_round (sp_prop sp) = s_round s -> the_only now sp -> taken o sp.
Proof.
  intros b cfg log n l1 e sp s o r l2 l Hrun Hl now Hsv Hf Hfar Ht Er Honly.
  rewrite <-app_assoc in Hl. simpl in Hl.
  assert (l1 <> []) as Hne.
  { destruct (noderun_first _ _ _ _ _ _ _ _ _ Hrun) as (o0 & r0 & tl & E). intros ->. by rewrite E in Hl. }
  destruct (noderun_split _ _ _ _ _ _ _ _ _ _ _ _ Hrun Hl Hne) as (n1 & lb & n2 & Hr1 & Hst).
  pose proof (noderun_nostop _ _ _ _ _ _ _ _ _ Hr1) as (_ & _ & _ & _ & _ & _ & Hson & _).
  apply nstep_cases in Hst as [(e0 & i0 & s' & o0 & r0 & _ & Hre & Es' & _ & E)|(_ & _ & Hi & _)]; [|done].
  injection E as Ee <- Es0 <- <-. subst e s. set (s := nd_st n1) in *. set (e := env_at n1 e0) in *.
  assert (forall t, e_trigger e t = true) as Htrig by (intros; unfold e, env_at; simpl; exact Hson).
  pose proof Ht as (Hp & Eh & _ & Hg).
  assert (forall w, ASave w false ∉ actions l1) as Hsv1 by (intros w Hin; apply (Hsv w); unfold now; rewrite actions_app; set_solver).
  assert (in_force_at l (s_height s) l1) as Hf1 by (intros e1 i1 s1 o1 r1 Hin; eapply Hf; apply elem_of_app; by left).
  assert (s_auth s = auth_update l) as Ea by (eapply Hf; [apply elem_of_app; right; by apply elem_of_list_singleton|done]).
  pose proof (noderun_props _ _ _ _ l Hr1 Hp Hsv1 Hf1) as Hby. fold s in Hby.
  eapply react_core in Hre; [|reflexivity]; destruct Hre as [(Hsk & _)|(_ & r' & Hre & _)]; [exfalso; destruct Hsk as [[? _]|[_ [? ?]]]; [congruence|done]|].
  eapply hsp_taken in Hre as [_ Hre]; try done; [by apply Hre|].
  rewrite Eh. intros sp' Hsp. destruct (Hby _ _ Hsp) as ((e1 & s1 & o1 & r1 & Hin) & E1 & E2 & E3). apply Honly; [|congruence|congruence|].
  - exists e1, s1, o1, r1. apply elem_of_app. by left.
  - rewrite Eh in Hg. congruence.
Qed.
(** C61. The same for a proposal that came before its round, when the round is entered by an instance
    that does not lead it, and the entry is recorded. *)
Theorem C61_early_proposals_are_taken :
  forall b cfg log n l1 e h rd lr lp from iv cf s o r l2 l sp w,
    let entry := NState e (IEvent (EvNewRound h rd lr lp from iv cf)) s o r in
    noderun b cfg log n -> log = (l1 ++ [entry]) ++ l2 ->
    let now := l1 ++ [entry] in
    (forall w, ASave w false ∉ actions now) -> in_force_at l (s_height s) now ->
    s_height s + FUTURE_HEIGHT_GAP < 2 ^ 64 -> rd + FUTURE_ROUND_GAP < 2 ^ 64 ->
    (exists e0 s0 o0 r0, NState e0 (IMsg (MProposal sp)) s0 o0 r0 ∈ l1 /\ s_height s0 = s_height s /\ timely_proposal l sp s0 /\
       s_round s0 + FUTURE_ROUND_GAP < 2 ^ 64) ->
    p_round (sp_prop sp) = rd -> p_proposer (sp_prop sp) <> b_addr b -> the_only l1 sp ->
    s_power s = true -> ASave w true ∈ o -> taken o sp.
Proof.
  intros b cfg log n l1 e h rd lr lp from iv cf s o r l2 l sp w entry Hrun Hl now Hsv Hf Hfh Hfr (e0 & s0 & o0 & r0 & Hin & Eh0 & Ht0 & Hfr0) Erd Hadr Honly Hp Hw.
  rewrite <-app_assoc in Hl. simpl in Hl.
  assert (l1 <> []) as Hne by (intros ->; by apply elem_of_nil in Hin).
  destruct (noderun_split _ _ _ _ _ _ _ _ _ _ _ _ Hrun Hl Hne) as (n1 & lb & n2 & Hr1 & Hst).
  pose proof (noderun_nostop _ _ _ _ _ _ _ _ _ Hr1) as (_ & _ & _ & _ & _ & _ & Hson & _).
  apply nstep_cases in Hst as [(e1 & i1 & s' & o1 & r1 & _ & Hre & Es' & _ & E)|(_ & _ & Hi & _)]; [|done].
  injection E as Ee <- Es0 <- <-. subst entry e s. set (s := nd_st n1) in *. set (e := env_at n1 e1) in *.
  assert (forall t, e_trigger e t = true) as Htrig by (intros; unfold e, env_at; simpl; exact Hson).
  assert (forall w, ASave w false ∉ actions l1) as Hsv1 by (intros w1 Hin1; apply (Hsv w1); unfold now; rewrite actions_app; set_solver).
  assert (in_force_at l (s_height s) l1) as Hf1 by (intros e2 i1 s1 o2 r2 Hin1; eapply Hf; apply elem_of_app; by left).
  assert (s_auth s = auth_update l) as Ea by (eapply Hf; [apply elem_of_app; right; by apply elem_of_list_singleton|done]).
  pose proof (noderun_props _ _ _ _ l Hr1 Hp Hsv1 Hf1) as Hby. fold s in Hby.
  pose proof (noderun_run _ _ _ _ _ _ _ _ _ Hr1) as Hrun1. apply run_run_inv in Hrun1 as [_ _ _ _ _ Had]. fold s in Had. simpl in Had.
  destruct Ht0 as (Hp0 & Ehp & Er0 & Hg). rewrite Eh0 in Ehp.
  (* it is stored *)
  assert (pget (s_props s) (s_height s) rd = Some sp) as Hstored.
  { destruct (early_since _ _ _ _ _ _ _ _ _ Hr1 Hin) as (s2 & o2 & Hre0 & HR).
    destruct (timely_stored _ _ l _ _ _ _ Hre0) as [sp' Hsp'].
    - rewrite <-Eh0 in Hf1. by eapply Hf1.
    - split_and!; [done|congruence|lia..|done].
    - split; [congruence|done].
    - destruct HR as [Hm1 HR]. apply early_react in Hre0 as [Hm2 _]. fold s in Hm1, HR.
      apply (proj2 (proj2 (HR (p_height (sp_prop sp)) (p_round (sp_prop sp)) ltac:(lia)))) in Hsp'. rewrite Ehp, Erd in Hsp'.
      destruct (Hby _ _ Hsp') as (Hc & E1 & E2 & E3). rewrite <-(Honly sp'); [done|done|congruence|congruence|].
      rewrite Ehp, Erd in Hg. congruence. }
  eapply react_core in Hre; [|reflexivity]; destruct Hre as [(_ & _ & -> & _)|(_ & r' & Hre & _)]; [by apply elem_of_nil in Hw|].
  apply new_round_inv in Hre as (o1 & -> & [(-> & _)|(uf & lk & _ & _ & _ & [(_ & -> & _)|(_ & o2 & -> & Hpp)])]).
  { exfalso. rewrite app_nil_r in Hw. unfold view_changes in Hw. case_match; set_solver. }
  { exfalso. eapply Hsv. unfold now. rewrite actions_app. apply elem_of_app. right. unfold actions. simpl. rewrite app_nil_r.
    apply elem_of_app. right. by apply elem_of_list_singleton. }
  assert (taken o2 sp) as [A B]; [|split; apply elem_of_app; right; by right].
  unfold propose_part in Hpp.
  assert (is_proposer lc (entered rd uf s) = (set_s_leader false (set_s_laddr (p_proposer (sp_prop sp)) (entered rd uf s)), [], Ok false)) as Hip.
  { unfold is_proposer, bind, get, lift, modify, ret. change (s_auth (entered rd uf s)) with (s_auth s).
    change (s_height (entered rd uf s)) with (s_height s). change (s_round (entered rd uf s)) with rd.
    rewrite Ea, <-Ehp, <-Erd, Hg. rewrite decide_False; [done|]. change (s_addr (entered (p_round (sp_prop sp)) uf s)) with (s_addr s). congruence. }
  unfold bind at 1 in Hpp. rewrite Hip in Hpp. cbn [negb] in Hpp. unfold get in Hpp. set (s3 := set_s_leader _ _) in Hpp.
  change (s_props s3) with (s_props s) in Hpp. change (s_height s3) with (s_height s) in Hpp. change (s_round s3) with rd in Hpp.
  rewrite pc_get_pget, Hstored in Hpp.
  destruct (handle_signed_proposal lc e sp s3) as [[s4 o4] r4] eqn:Eq. injection Hpp as _ <- _.
  eapply hsp_taken in Eq as [_ Eq]; [by apply Eq|exact Ea|..|done].
  - split_and!; [done|done|change (s_round s3) with rd; lia..|done].
  - split; [exact Hfh|exact Hfr].
  - rewrite Ehp, Erd. change (s_props s3) with (s_props s). intros sp' Hsp. congruence.
Qed.

End E.
