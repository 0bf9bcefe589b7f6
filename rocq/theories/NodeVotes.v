(** * NodeVotes: the order in which an instance votes and writes its log, over the whole of its
    life (for C35). *)
From Verif Require Export NodeVerify P_Cert.
Set Default Proof Using "Type".

Section V.
Context {T : Type} `{EqDecision T}.
Context (lc : lcfg) (tenc : T -> bytes) (tdec : bytes -> option T) (spill : bool) (cr : crypto).
Local Notation noderun := (noderun lc tenc tdec spill cr).
Local Notation react := (react lc tenc).

(** A trigger of height [h] that neither starts the state machine nor moves it to a height. *)
Definition plain (h : N) (t : trigger) : Prop :=
  (forall x, t_type t <> TNewHeight x) /\ t_type t <> TWalInfo /\ t_height t = h.
(** Height, round and power are kept; records are of the current position with step in [k]. *)
Definition holdR (k : option step) (s : st T) (o : list (action T)) (s' : st T) : Prop :=
  s_height s' = s_height s /\ s_round s' = s_round s /\ s_power s' = s_power s /\
  (forall w b, ASave w b ∈ o -> wi_height w = s_height s /\ wi_round w = s_round s /\ k = Some (wi_step w)) /\
  (forall t, ATrigger t ∈ o -> plain (s_height s) t).
Lemma holdR_comp k : comp (holdR k).
Proof.
  clear lc tenc tdec spill cr. split; [intros s; unfold holdR; split_and!; try done; intros; by apply elem_of_nil in H|].
  intros s1 s2 s3 o1 o2 (A1 & A2 & A3 & A4 & A5) (B1 & B2 & B3 & B4 & B5). unfold holdR; split_and!; try congruence.
  - intros w b [Hw|Hw]%elem_of_app; [eauto|]. apply B4 in Hw as (? & ? & ?). split_and!; congruence.
  - intros t [Ht|Ht]%elem_of_app; [auto|]. apply B5 in Ht as (? & ? & ?). unfold plain; split_and!; [done..|congruence].
Qed.
Lemma hold_same k s s' : s_height s' = s_height s -> s_round s' = s_round s -> s_power s' = s_power s -> holdR k s [] s'.
Proof. intros. unfold holdR; split_and!; try done; intros; by apply elem_of_nil in H2. Qed.
Lemma hold_quiet k s s' o :
  s_height s' = s_height s -> s_round s' = s_round s -> s_power s' = s_power s ->
  (forall w b, ASave w b ∉ o) -> (forall t, ATrigger t ∈ o -> plain (s_height s) t) -> holdR k s o s'.
Proof. intros H1 H2 H3 H4 H5. unfold holdR; split_and!; try done. intros w b Hw. by apply H4 in Hw. Qed.
Lemma hold_one k s s' a :
  s_height s' = s_height s -> s_round s' = s_round s -> s_power s' = s_power s ->
  match a with ASave _ _ => False | ATrigger t => plain (s_height s) t | _ => True end -> holdR k s [a] s'.
Proof.
  intros H1 H2 H3 Ha. apply hold_quiet; try done.
  - intros w b Hw%elem_of_list_singleton. by subst a.
  - intros t Ht%elem_of_list_singleton. by subst a.
Qed.
Lemma hold_save e k l s : holdR (Some k) s [ASave (mkWalInfo (s_height s) (s_round s) k l (s_from s)) e] s.
Proof.
  unfold holdR; split_and!; try done.
  - intros w b Hw%elem_of_list_singleton. injection Hw as -> _. done.
  - intros t Ht%elem_of_list_singleton. done.
Qed.
Lemma hold_save_lr e k lr : keeps (holdR (Some k)) (save_wal_with_lock_round (T:=T) e k lr).
Proof.
  clear lc tenc tdec spill cr. intros s s' o r Hs. apply save_lr_inv in Hs as [-> Hs].
  destruct (lock_to_save s lr) as [l|]; destruct Hs as [-> _]; [apply hold_save|by apply hold_same].
Qed.
Lemma hold_choke k e : keeps (holdR k) (check_choke_above_threshold (T:=T) e).
Proof.
  clear lc tenc tdec spill cr. intros s s' o r Hc.
  apply check_choke_inv in Hc as [(-> & -> & _)|(x & l & sig & _ & _ & _ & _ & -> & [[-> _]|[-> _]])];
    [by apply hold_same|by apply hold_same|by apply hold_one].
Qed.
Lemma hold_publish k e hash t : keeps (holdR k) (publish_qc (T:=T) e hash t).
Proof.
  clear lc tenc tdec spill cr. intros s s' o r Hp.
  apply publish_inv in Hp as [[-> ->]|(l & sig & _ & _ & -> & tr & -> & Htr)]; [by apply hold_same|].
  apply hold_quiet; try done.
  - intros w b [?|Hw]%elem_of_cons; [done|]. destruct Htr as [->|[-> _]]; [by apply elem_of_nil in Hw|].
    by apply elem_of_list_singleton in Hw.
  - intros t0 [?|Hw]%elem_of_cons; [done|]. destruct Htr as [->|[-> _]]; [by apply elem_of_nil in Hw|].
    apply elem_of_list_singleton in Hw. injection Hw as ->. unfold plain. by destruct t.
Qed.
Lemma hold_trigger k e s t s' o r : trigger_smr e t s = (s', o, r) -> plain (s_height s) t -> holdR k s o s'.
Proof.
  intros Ht Hp. apply trigger_inv in Ht as [-> [[-> _]|[-> _]]]; [by apply hold_one|by apply hold_same].
Qed.
Lemma hold_vote_process k e t : keeps (holdR k) (vote_process (T:=T) e t).
Proof.
  clear lc tenc tdec spill cr. intros s s' o r Hv. unfold vote_process, get in Hv. destruct (s_leader s); cbn [negb] in Hv.
  - unfold count_now, get, bind, lift in Hv. destruct (counting_vote _ _ _ _ _) as [h'| |].
    2-3: simplify_eq; by apply hold_same.
    rewrite eta3 in Hv. destruct h' as [hash|]; [by eapply hold_publish|]. unfold ret in Hv. simplify_eq. by apply hold_same.
  - destruct (vc_get_qc_by_id _ _ _ _) as [q| |]; [|unfold ret in Hv; simplify_eq; by apply hold_same..].
    destruct (try_get_full_txs _ _); [|unfold ret in Hv; simplify_eq; by apply hold_same].
    eapply hold_trigger; [exact Hv|]. unfold plain. by destruct (av_type q).
Qed.
Lemma hold_brake e rd lr : keeps (holdR (Some SBrake)) (handle_brake (T:=T) e rd lr).
Proof.
  clear lc tenc tdec spill cr. intros s s' o r Hb. unfold handle_brake, get in Hb.
  destruct (negb _); [unfold fail in Hb; simplify_eq; by apply hold_same|].
  destruct (cr_sign _ _) as [sig|]; [|unfold fail in Hb; simplify_eq; by apply hold_same].
  revert Hb. generalize (mkSChoke sig (mkChoke (s_height s) (s_round s) (s_from s)) (s_addr s)). intros sc Hb.
  eapply (keeps_bind (holdR (Some SBrake)) (holdR_comp _)); [| |exact Hb]; clear Hb.
  { intros s1 s2 o1 r1 H1. unfold emit in H1. injection H1 as <- <- _. by apply hold_one. }
  intros ?; cbv beta. apply (keeps_bind _ (holdR_comp _)).
  { intros s1 s2 o1 r1 H1. unfold modify in H1. injection H1 as <- <- _. by apply hold_same. }
  intros ?; cbv beta. apply (keeps_bind _ (holdR_comp _)); [apply hold_save_lr|].
  intros ?; cbv beta. apply (keeps_bind _ (holdR_comp _)); [|intros; apply hold_choke].
  intros s1 s2 o1 r1 H1. unfold broadcast, emit in H1. injection H1 as <- <- _. by apply hold_one.
Qed.
Lemma hold_agg k e q : keeps (holdR k) (handle_aggregated_vote (T:=T) e q).
Proof.
  clear lc tenc tdec spill cr. intros s s' o r Ha.
  apply agg_inv in Ha as [(_ & -> & -> & _)|[(_ & _ & -> & -> & _)|(Eh & _ & -> & [[-> _]|(-> & Hf & _)])]];
    try by apply hold_same. apply hold_one; try done. unfold plain, qc_trigger, mk_trigger. simpl. by destruct (av_type q).
Qed.
Lemma hold_signed_choke k e sc : keeps (holdR k) (handle_signed_choke (T:=T) e sc).
Proof.
  clear lc tenc tdec spill cr. intros s s' o r Hc.
  apply choke_inv in Hc as [(_ & -> & -> & _)|[(_ & _ & Hc)|(_ & _ & Hc)]]; [by apply hold_same|..].
  - destruct (ck_from _); [by eapply hold_agg..|].
    apply aggchoke_inv in Hc as [(_ & -> & -> & _)|(_ & -> & [[-> _]|[-> _]])]; [by apply hold_same|by apply hold_same|by apply hold_one].
  - apply (hold_choke k) in Hc. destruct (holdR_comp k) as [_ Hk].
    change o with ([] ++ o). eapply Hk; [|exact Hc]. by apply hold_same.
Qed.
Lemma hold_signed_vote k e v : keeps (holdR k) (handle_signed_vote (T:=T) e v).
Proof.
  clear lc tenc tdec spill cr. intros s s' o r Hv. unfold handle_signed_vote, get at 1 in Hv.
  destruct (filter_message _ _ _); [unfold ret in Hv; simplify_eq; by apply hold_same|].
  revert Hv. apply (keeps_bind (holdR k) (holdR_comp k)).
  { intros s1 s2 o1 r1 H1. unfold verify_address, get, ret, fail in H1. destruct (auth_contains _ _); simplify_eq; by apply hold_same. }
  intros ?; cbv beta. destruct (is_ok _); [apply (keeps_ret _ (holdR_comp k))|].
  apply (keeps_bind _ (holdR_comp _)).
  { intros s1 s2 o1 r1 H1. unfold modify in H1. injection H1 as <- <- _. by apply hold_same. }
  intros ?; cbv beta. destruct (s_height s <? _); [apply (keeps_ret _ (holdR_comp k))|].
  apply (keeps_bind _ (holdR_comp _)).
  { intros s1 s2 o1 r1 H1. unfold count_now, get, lift in H1. simplify_eq. by apply hold_same. }
  intros [hash|]; [apply hold_publish|apply (keeps_ret _ (holdR_comp k))].
Qed.
Lemma hold_proposal k e sp : keeps (holdR k) (handle_signed_proposal lc e sp).
Proof.
  clear tenc tdec spill cr. intros s s' o r Hp.
  apply hsp_inv in Hp as [(-> & -> & _)|[(_ & _ & _ & -> & -> & _)|(_ & _ & Eh & Er & -> & Hp)]]; [by apply hold_same..|].
  destruct (pc_insert _ _ _ _).2.
  - destruct Hp as [[-> _]|[-> _]].
    + apply hold_quiet; try done.
      * intros w b Hw. rewrite !elem_of_cons, elem_of_nil in Hw. intuition discriminate.
      * intros t [Ht|Ht]%elem_of_cons; [injection Ht as ->; by unfold plain|]. by apply elem_of_list_singleton in Ht.
    + by apply hold_same.
  - destruct Hp as [-> _]. by apply hold_same.
  - destruct Hp as [-> _]. by apply hold_same.
Qed.
Lemma hold_resp k e rs ops s s' o r :
  s_votes s = vops ops -> handle_resp (T:=T) e rs s = (s', o, r) -> holdR k s o s'.
Proof.
  clear lc tenc tdec spill cr. intros Ev Hs.
  apply resp_inv in Hs as [(_ & -> & ->)|(_ & -> & [->|(q & t & -> & Hq & _)])]; [by apply hold_same..|].
  rewrite Ev in Hq. apply lookup_hash in Hq as (_ & Eq & _). apply hold_one; try done.
  unfold plain, mk_trigger. simpl. by destruct t.
Qed.
Lemma hold_propose k e lr lp : keeps (holdR k) (propose_part lc tenc e lr lp).
Proof.
  clear tdec spill cr. intros s s' o r Hp. apply propose_inv in Hp.
  destruct (get_proposer _ _ _ _) as [p| |]; [|destruct Hp as [-> ->]; by apply hold_same..].
  destruct (decide (p = s_addr s)).
  - assert (forall s1 om x, make_proposal e lr lp (led p s) = (s1, om, x) -> om = [] \/ om = [AGetBlock (s_height s)]) as Hm.
    { intros s1 om x Hm. unfold make_proposal, get in Hm. destruct lr as [rd|].
      - destruct lp as [h|]; [|unfold lift in Hm; simplify_eq; auto].
        destruct (s_blocks _ !! h); [|unfold fail in Hm; simplify_eq; auto].
        destruct (vc_get_qc_by_id _ _ _ _); unfold ret, fail in Hm; simplify_eq; auto.
      - unfold bind, emit in Hm. destruct (e_get_block _ _) as [[? ?]|]; unfold ret, fail in Hm; simplify_eq; auto. }
    destruct Hp as [(-> & [->| ->] & _)|(b & h & pl & om & Hp & -> & Ho)]; [by apply hold_same|by apply hold_one|].
    apply Hm in Hp as Hom. clear Hm Hp.
    assert (s_height (with_block h b (led p s)) = s_height s /\ s_round (with_block h b (led p s)) = s_round s /\
            s_power (with_block h b (led p s)) = s_power s) as (E1 & E2 & E3).
    { unfold with_block. by destruct (s_blocks (led p s) !! h). }
    apply hold_quiet; [done..| |].
    + intros w b0 Hw. destruct Ho as [[-> _]|(sig & tr & _ & -> & Htr)].
      * destruct Hom as [->| ->]; [by apply elem_of_nil in Hw|by apply elem_of_list_singleton in Hw].
      * rewrite elem_of_app, elem_of_cons in Hw. destruct Hom as [->| ->], Htr as [->| ->];
          rewrite ?elem_of_cons, ?elem_of_nil in Hw; intuition discriminate.
    + intros t Hw. destruct Ho as [[-> _]|(sig & tr & _ & -> & Htr)].
      * destruct Hom as [->| ->]; [by apply elem_of_nil in Hw|by apply elem_of_list_singleton in Hw].
      * rewrite elem_of_app, elem_of_cons in Hw.
        assert (ATrigger t ∈ tr) as Hin. { destruct Hom as [->| ->]; rewrite ?elem_of_cons, ?elem_of_nil in Hw; intuition discriminate. }
        destruct Htr as [->| ->]; [by apply elem_of_nil in Hin|].
        apply elem_of_cons in Hin as [Hin|Hin%elem_of_list_singleton]; [|done]. injection Hin as ->. by unfold plain.
  - destruct (pc_get _ _ _) as [sp| |]; [|destruct Hp as (-> & -> & _); by apply hold_same..].
    apply (hold_proposal k) in Hp. exact Hp.
Qed.

(** ** What one iteration of the loop does *)
(** The step recorded for an event, and the position it is recorded for. *)
Definition ev_step (ev : smr_event) : step :=
  match ev with
  | EvNewRound _ _ _ _ _ _ _ => SPropose | EvPrevote _ _ _ _ => SPrevote | EvPrecommit _ _ _ _ => SPrecommit
  | EvBrake _ _ _ => SBrake | _ => SCommit
  end.
Definition round_after (i : input T) (s : st T) : N :=
  match i with IEvent (EvNewRound _ rd _ _ _ _ _) => if s_power s then rd else s_round s | _ => s_round s end.
Record moveR (i : input T) (s : st T) (o : list (action T)) (s' : st T) : Prop := mkMoveR {
  mv_state : s_height s < s_height s' \/
    (s_height s' = s_height s /\ s_power s' = s_power s /\ s_round s' = round_after i s);
  mv_save : forall w b, ASave w b ∈ o -> s_height s < wi_height w \/
    (s_power s = true /\ wi_height w = s_height s /\ wi_round w = round_after i s /\
     exists ev, i = IEvent ev /\ wi_step w = ev_step ev);
  mv_trig : forall t, ATrigger t ∈ o ->
    (exists x, t_type t = TNewHeight x /\ s_height s < ss_height x) \/ plain (s_height s) t }.
Lemma moveR_goto i e stt s s' o r :
  round_after i s = s_round s -> goto_new_height (T:=T) e stt s = (s', o, r) -> moveR i s o s'.
Proof.
  intros Hi Hg. apply goto_inv in Hg as [(? & -> & -> & _)|[(? & _ & -> & -> & _)|[(? & _ & -> & -> & _)|(Hlt & _ & -> & tr & -> & Htr)]]].
  - split; [by right|by intros ? ? ?%elem_of_nil..|by intros ? ?%elem_of_nil].
  - split; [by left|by intros ? ? ?%elem_of_nil..|by intros ? ?%elem_of_nil].
  - split; [by left|intros w b Hw%elem_of_list_singleton; injection Hw as -> _; by left|by intros ? ?%elem_of_list_singleton].
  - assert (s_height (moved_full stt s) = st_height stt) as E by (unfold moved_full; destruct (st_interval stt); done).
    split.
    + left. lia.
    + intros w b [Hw|Hw]%elem_of_cons; [injection Hw as -> _; by left|].
      apply elem_of_app in Hw as [Hw|Hw]; [by apply elem_of_list_fmap in Hw as (? & ? & ?)|].
      destruct Htr as [[-> _]|[-> _]]; [by apply elem_of_list_singleton in Hw|by apply elem_of_nil in Hw].
    + intros t [?|Hw]%elem_of_cons; [done|].
      apply elem_of_app in Hw as [Hw|Hw]; [by apply elem_of_list_fmap in Hw as (? & ? & ?)|].
      destruct Htr as [[-> _]|[-> _]]; [|by apply elem_of_nil in Hw]. apply elem_of_list_singleton in Hw. injection Hw as ->.
      left. eexists. split; [done|]. simpl. done.
Qed.
Lemma hold_move ev s o s' :
  s_power s = true -> round_after (IEvent ev) s = s_round s -> holdR (Some (ev_step ev)) s o s' -> moveR (IEvent ev) s o s'.
Proof.
  intros Hp Hi (A1 & A2 & A3 & A4 & A5). split.
  - right. rewrite Hi. done.
  - intros w b Hw. right. apply A4 in Hw as (? & ? & E). injection E as E. rewrite Hi. split_and!; eauto.
  - intros t Ht. right. auto.
Qed.
Lemma hold_move_none i s o s' :
  round_after i s = s_round s -> holdR None s o s' -> moveR i s o s'.
Proof.
  intros Hi (A1 & A2 & A3 & A4 & A5). split.
  - right. rewrite Hi. done.
  - intros w b Hw. apply A4 in Hw as (? & ? & E). done.
  - intros t Ht. right. auto.
Qed.
Lemma move_react ops e i s s' o r :
  s_votes s = vops ops -> s_stopped s = false -> i <> IMsg MStop ->
  react e i s = (s', o, r) -> moveR i s o s'.
Proof.
  clear tdec spill cr. intros Ev Hst Hns Hr.
  destruct (core lc tenc e i) as [x|] eqn:Ec.
  - pose proof (react_core _ _ _ _ _ _ _ _ _ Ec Hr) as [(Hsk & -> & -> & _)|(Hsk & r' & Hx & _)].
    { split; [right|by intros ? ? ?%elem_of_nil|by intros ? ?%elem_of_nil]. split_and!; try done.
      unfold round_after. destruct Hsk as [[Hp _]|[? _]]; [|congruence]. rewrite Hp. by repeat case_match. }
    destruct i as [m|ev|rs|m]; simpl in Ec; [done|..].
    + assert (s_power s = true) as Hp.
      { destruct (s_power s) eqn:E; [done|]. exfalso. apply Hsk. left. split; [done|by intros]. }
      destruct ev as [h rd lr lp from iv cf|h rd hash lr|h rd hash lr|hash|h rd lr|]; try discriminate Ec; injection Ec as <-.
      * apply new_round_inv in Hx as (o1 & -> & Hx).
        assert (forall a, a ∈ view_changes rd from s -> match a with ASave _ _ | ATrigger _ => False | _ => True end) as Hvc.
        { intros a. unfold view_changes. destruct (rd =? INIT_ROUND); [by intros ?%elem_of_nil|].
          intros ->%elem_of_list_singleton. done. }
        assert (forall s2, s_height s2 = s_height s -> s_power s2 = s_power s -> s_round s2 = rd ->
                  holdR (Some SPropose) s2 o1 s' -> moveR (IEvent (EvNewRound h rd lr lp from iv cf)) s (view_changes rd from s ++ o1) s') as Hk.
        { intros s2 E1 E2 E3 (A1 & A2 & A3 & A4 & A5). split; simpl; rewrite ?Hp.
          - right. split_and!; congruence.
          - intros w b [Hw|Hw]%elem_of_app; [by apply Hvc in Hw|]. apply A4 in Hw as (? & ? & E). injection E as E. right.
            split_and!; [done|congruence..|]. eexists. split; [done|]. done.
          - intros t [Hw|Hw]%elem_of_app; [by apply Hvc in Hw|]. right. rewrite <-E1. auto. }
        destruct Hx as [(-> & _ & [[-> _]|(uf & -> & _)])|(uf & l & _ & _ & _ & Hx)].
        -- apply (Hk (set_s_leader false (set_s_round rd s))); try done. by apply hold_same.
        -- apply (Hk (entered rd uf s)); try done. by apply hold_same.
        -- apply (Hk (entered rd uf s)); try done. destruct (holdR_comp (Some SPropose)) as [_ Hc].
           destruct Hx as [(_ & -> & -> & _)|(_ & o2 & -> & Hx)].
           ++ apply (hold_save false SPropose l (entered rd uf s)).
           ++ apply (hold_propose (Some SPropose)) in Hx.
              apply (Hc _ _ _ [_] o2 (hold_save true SPropose l (entered rd uf s)) Hx).
      * apply hold_move; [done|done|].
        assert (keeps (holdR (Some SPrevote)) (handle_vote_event e hash Prevote lr)) as Hk; [|by eapply Hk].
        clear. intros s s' o r Hx. destruct (holdR_comp (Some SPrevote)) as [_ Hc].
        apply vote_event_inv in Hx as [(-> & -> & _)|(sig & l & _ & _ & [(_ & -> & -> & _)|(_ & o2 & Hx)])].
        -- by apply hold_same.
        -- apply (hold_save false SPrevote).
        -- destruct (s_leader s); destruct Hx as [-> Hx]; apply (hold_vote_process (Some SPrevote)) in Hx.
           ++ apply (Hc _ _ _ [_] _ (hold_save true SPrevote l s)). eapply (Hc _ _ _ [_] o2); [|exact Hx]; by apply hold_one.
           ++ apply (Hc _ _ _ [_] _ (hold_save true SPrevote l s)). eapply (Hc _ _ _ [_] o2); [|exact Hx]; by apply hold_one.
      * apply hold_move; [done|done|].
        assert (keeps (holdR (Some SPrecommit)) (handle_vote_event e hash Precommit lr)) as Hk; [|by eapply Hk].
        clear. intros s s' o r Hx. destruct (holdR_comp (Some SPrecommit)) as [_ Hc].
        apply vote_event_inv in Hx as [(-> & -> & _)|(sig & l & _ & _ & [(_ & -> & -> & _)|(_ & o2 & Hx)])].
        -- by apply hold_same.
        -- apply (hold_save false SPrecommit).
        -- destruct (s_leader s); destruct Hx as [-> Hx]; apply (hold_vote_process (Some SPrecommit)) in Hx.
           ++ apply (Hc _ _ _ [_] _ (hold_save true SPrecommit l s)). eapply (Hc _ _ _ [_] o2); [|exact Hx]; by apply hold_one.
           ++ apply (Hc _ _ _ [_] _ (hold_save true SPrecommit l s)). eapply (Hc _ _ _ [_] o2); [|exact Hx]; by apply hold_one.
      * assert (forall ok content qc, ASave (commit_record s qc content) ok = ASave (mkWalInfo (s_height s) (s_round s) SCommit
            (Some (mkWalLock (s_round s) qc content)) (s_from s)) ok) as Erec by done.
        apply commit_inv in Hx as [(-> & -> & _)|(content & qc & _ & _ & [(_ & -> & ->)|(_ & Hx)])].
        -- apply hold_move; [done..|]. by apply hold_same.
        -- apply hold_move; [done..|]. rewrite Erec. apply (hold_save false SCommit).
        -- destruct (e_commit e _ _) as [stt|].
           2: { destruct Hx as (-> & -> & _). apply hold_move; [done..|]. rewrite Erec. destruct (holdR_comp (Some SCommit)) as [_ Hc].
                apply (Hc _ _ _ [_] _ (hold_save true SCommit _ s)). by apply hold_one. }
           destruct Hx as (o2 & -> & Hx).
           set (s1 := set_s_auth (auth_update (st_auth stt)) s) in Hx.
           assert (moveR (IEvent (EvCommit hash)) s1 o2 s') as [M1 M2 M3].
           { destruct (get_proposer _ _ _ _); [by eapply moveR_goto|..]; destruct Hx as (-> & -> & _);
               (apply hold_move_none; [done|by apply hold_same]). }
           split; [exact M1| |].
           ++ intros w b [Hw|[Hw|Hw]%elem_of_cons]%elem_of_cons; [|done|].
              ** injection Hw as -> _. right. split_and!; try done. eexists. by split.
              ** by apply M2 in Hw.
           ++ intros t [Hw|[Hw|Hw]%elem_of_cons]%elem_of_cons; [done|done|]. by apply M3.
      * unfold get in Hx. destruct (negb _); [unfold ret in Hx; simplify_eq; apply hold_move; [done|done|by apply hold_same]|].
        apply hold_move; [done|done|]. by eapply hold_brake.
    + injection Ec as <-. apply hold_move_none; [done|]. by eapply hold_resp.
    + destruct m; try discriminate Ec; injection Ec as <-.
      * apply hold_move_none; [done|]. by eapply hold_proposal.
      * apply hold_move_none; [done|]. by eapply hold_signed_vote.
      * apply hold_move_none; [done|]. by eapply hold_agg.
      * by eapply moveR_goto.
      * apply hold_move_none; [done|]. by eapply hold_signed_choke.
  - destruct i as [m|ev|rs|m]; simpl in Ec; try done.
    + pose proof (react_shape _ _ _ _ _ _ _ _ Hr) as [m' Hm -> Ho|Hm _ _|stt s1 o1 o2 r1 _ _ _ _ _ _ [Ha|(? & ? & ? & Ha & _)]]; try done.
      2: by destruct (Hm m). apply hold_move_none; [done|].
      destruct Ho as [->|[[-> _]|[-> _]]]; [by apply hold_same|by apply hold_one..].
    + destruct ev; try done. apply hold_move_none; [done|]. revert Hr. unfold react, on_event, get, bind, logged, ret. rewrite Hst.
      destruct (negb (s_power s)); [intros; simplify_eq; by apply hold_same|]. simpl. intros; simplify_eq; by apply hold_same.
    + by destruct m.
Qed.
End V.
