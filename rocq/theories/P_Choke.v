(** * P_Choke: enough chokes end a round (C60). *)
From Verif Require Export P_Quorum.
Set Default Proof Using "Type".

Section Q.
Context {T : Type} `{EqDecision T}.
Context (lc : lcfg) (tenc : T -> bytes) (tdec : bytes -> option T) (spill : bool) (cr : crypto).
Local Notation noderun := (noderun lc tenc tdec spill cr).

(** ** What a height keeps *)
Definition choker (s : st T) (r : N) (a : bytes) : Prop := a ∈ choke_dom (s_chokes s) r.
Definition chkR (s : st T) (o : list (action T)) (s' : st T) : Prop :=
  s_height s <= s_height s' /\
  (s_height s' = s_height s -> s_power s' = s_power s /\ forall r a, choker s r a -> choker s' r a) /\
  (forall sc, AOwnChoke sc ∈ o -> s_height s <= ck_height (sc_choke sc) <= s_height s' /\
     (s_height s' = ck_height (sc_choke sc) -> choker s' (ck_round (sc_choke sc)) (sc_addr sc))).
Lemma chk_comp : comp chkR.
Proof.
  clear lc tenc tdec spill cr. split; [intros s0; split_and!; [lia|auto|by intros ? ?%elem_of_nil]|].
  intros s1 s2 s3 o1 o2 (A1 & A2 & A3) (B1 & B2 & B3). split_and!; [lia| |].
  - intros E. destruct A2 as (A2 & A4); [lia|]. destruct B2 as (B2 & B4); [lia|]. split; [congruence|auto].
  - intros sc [Hi|Hi]%elem_of_app.
    + destruct (A3 _ Hi) as (C1 & C2). split; [lia|]. intros E. destruct B2 as (_ & B4); [lia|]. apply B4, C2. lia.
    + destruct (B3 _ Hi) as (C1 & C2). split; [lia|done].
Qed.
Lemma chk_quiet (s : st T) o s' : s_height s' = s_height s -> s_power s' = s_power s -> (forall r a, choker s r a -> choker s' r a) ->
  (forall sc, AOwnChoke sc ∉ o) -> chkR s o s'.
Proof. clear lc tenc tdec spill cr. intros E1 E2 E3 E4. split_and!; [lia|auto|]. intros sc Hi. by apply E4 in Hi. Qed.
Lemma chk_goto e stt : keeps chkR (goto_new_height (T:=T) e stt).
Proof.
  clear lc tenc tdec spill cr. intros s s' o r Hg.
  apply goto_inv in Hg as [(? & -> & -> & _)|[(? & _ & -> & -> & _)|[(? & _ & -> & -> & _)|(? & _ & -> & tr & -> & Htr)]]].
  - apply chk_comp.
  - split_and!; simpl; [lia|intros; lia|by intros ? ?%elem_of_nil].
  - split_and!; simpl; [lia|intros; lia|by intros ? ?%elem_of_list_singleton].
  - unfold moved_full. split_and!; [destruct (st_interval stt); simpl; lia|destruct (st_interval stt); simpl; intros; lia|].
    intros sc [?|[(? & ? & ?)%elem_of_list_fmap|Hq]%elem_of_app]%elem_of_cons; try done.
    exfalso. destruct Htr as [[-> _]|[-> _]]; [by apply elem_of_list_singleton in Hq|by apply elem_of_nil in Hq].
Qed.
Local Hint Resolve chk_goto : keepsdb.
Lemma dom_insert_choke c r sc k : choke_dom (cc_insert c r sc) k = if decide (k = r) then {[sc_addr sc]} ∪ choke_dom c k else choke_dom c k.
Proof.
  clear lc tenc tdec spill cr. unfold choke_dom, cc_insert; simpl. destruct (decide (k = r)) as [->|Hr].
  - rewrite lookup_insert, dom_insert_L. destruct (cc_chokes c !! r); simpl; [done|]. by rewrite dom_empty_L.
  - by rewrite lookup_insert_ne.
Qed.
Lemma choker_insert (s : st T) r sc k a : choker (set_s_chokes (cc_insert (s_chokes s) r sc) s) k a <-> choker s k a \/ (k = r /\ a = sc_addr sc).
Proof.
  clear lc tenc tdec spill cr. unfold choker. change (s_chokes (set_s_chokes (cc_insert (s_chokes s) r sc) s)) with (cc_insert (s_chokes s) r sc). rewrite dom_insert_choke. destruct (decide (k = r)); set_solver.
Qed.
Ltac noown := let Hq := fresh "Hq" in intros ?sc Hq; repeat (apply elem_of_cons in Hq as [?|Hq]; [done|]); by apply elem_of_nil in Hq.
Ltac chk_fin := intros; first [by apply chk_quiet; [done..|noown]|
  apply chk_quiet; [done|done|intros; apply choker_insert; by left|noown]|idtac].
Lemma chk_brake e rd lr : keeps chkR (handle_brake (T:=T) e rd lr).
Proof.
  clear lc tenc tdec spill cr. intros s s' o r Hb. unfold handle_brake, get in Hb.
  destruct (negb _); [unfold fail in Hb; simplify_eq; apply chk_comp|].
  destruct (cr_sign _ _) as [sig|] eqn:Es; [|unfold fail in Hb; simplify_eq; apply chk_comp].
  cbv zeta in Hb. revert Hb. set (sc := mkSChoke _ _ _). intros Hb.
  apply bind_inv in Hb as [(u & s1 & o1 & o2 & H1 & Hb & ->)|[(x & H1 & ->)|(H1 & ->)]]; unfold emit in H1; simplify_eq.
  apply bind_inv in Hb as [(u' & s2 & o3 & o4 & H1 & Hb & ->)|[(x & H1 & ->)|(H1 & ->)]]; unfold modify in H1; simplify_eq.
  assert (keeps chkR (bind (save_wal_with_lock_round (T:=T) e SBrake lr) (fun _ => bind (broadcast (MChoke sc)) (fun _ => check_choke_above_threshold e)))) as Hk
    by (keeps_go chk_comp; chk_fin).
  apply Hk in Hb. cbn [app]. change (AOwnChoke sc :: o4) with ([AOwnChoke sc] ++ o4).
  eapply (comp_app _ chk_comp); [|exact Hb]. split_and!; [done| |].
  - intros _. split; [done|]. intros. apply choker_insert. by left.
  - intros sc' Hi%elem_of_list_singleton. injection Hi as ->. split; [done|]. intros _. apply choker_insert. by right.
Qed.
Local Hint Resolve chk_brake : keepsdb.
Lemma chk_react e i : keeps chkR (react lc tenc e i).
Proof.
  clear tdec spill cr. apply (keeps_react _ _ _ chk_comp).
  - intros m ->. apply (keeps_on_msg _ _ chk_comp); [chk_fin|]. keeps_go chk_comp; chk_fin.
  - intros m _. keeps_go chk_comp; chk_fin.
  - intros m _. keeps_go chk_comp; chk_fin.
  - intros ev ->. destruct ev; keeps_go chk_comp; chk_fin.
    case_match; chk_fin.
Qed.
Lemma chk_tail e w : keeps chkR (start_tail (T:=T) lc e w).
Proof.
  clear tenc tdec spill cr. apply (keeps_start_tail _ _ chk_comp).
  - intros h. keeps_go chk_comp; chk_fin.
  - apply chk_brake.
  - chk_fin.
Qed.

(** ** Chokes are counted *)
Lemma quorum_size (Q : list bytes) ops r : NoDup Q -> (forall a, a ∈ Q -> a ∈ choke_dom (cops ops) r) -> (length Q <= length (chokers ops r))%nat.
Proof.
  clear lc tenc tdec spill cr. intros Hn Hq. apply submseteq_length, NoDup_submseteq; [done|]. intros a Ha. apply Hq in Ha.
  destruct (cops_dom ops r) as [_ E]. rewrite E in Ha. by apply elem_of_list_to_set in Ha.
Qed.
Lemma check_fwd e (s : st T) s' o r Q ops :
  check_choke_above_threshold e s = (s', o, r) -> s_chokes s = cops ops -> NoDup Q -> (forall a, a ∈ Q -> choker s (s_round s) a) ->
  (3 * length Q > 2 * auth_len (s_auth s))%nat -> (forall sigs who, is_Some (cr_aggregate (e_crypto e) sigs who)) -> (forall t, e_trigger e t = true) ->
  exists k, s_round s <= k /\ ATrigger (round_trigger k (s_height s)) ∈ o /\ chokers ops k <> [].
Proof.
  clear lc tenc tdec spill cr. intros Hc Ec Hn HQ Hlen Hagg Htr.
  assert (length Q <= length (chokers ops (s_round s)))%nat as Hl by (apply quorum_size; [done|]; intros a Ha; rewrite <-Ec; by apply HQ).
  pose proof (max_round_spec ops (auth_len (s_auth s))) as Hm.
  unfold check_choke_above_threshold, get in Hc. rewrite Ec in Hc.
  destruct (cc_max_round _ _) as [k|] eqn:Ek; [|specialize (Hm (s_round s)); lia]. destruct Hm as [Hm1 Hm2].
  destruct (N.ltb_spec k (s_round s)) as [Hlt|Hge].
  { apply Hm2 in Hlt. lia. }
  assert (chokers ops k <> []) as Hne by (intros E; rewrite E in Hm1; simpl in Hm1; lia).
  unfold cc_get_chokes in Hc. destruct (cc_chokes (cops ops) !! k) as [m|] eqn:Em; [|by apply cops_none in Em]. simpl in Hc.
  unfold bind at 1, aggregate_signatures in Hc. destruct (Hagg (sc_sig <$> values m) (sc_addr <$> values m)) as [sig Hsig].
  rewrite Hsig in Hc. unfold ret, bind, modify, trigger_smr, emit in Hc. rewrite Htr in Hc. simpl in Hc. injection Hc as _ <- _.
  exists k. split_and!; [done|by left|done].
Qed.
Lemma choke_msg_step e sc s s' o r :
  react lc tenc e (IMsg (MChoke sc)) s = (s', o, r) -> s_power s = true -> ck_height (sc_choke sc) = s_height s -> ck_round (sc_choke sc) = s_round s ->
  exists r', check_choke_above_threshold e (set_s_chokes (cc_insert (s_chokes s) (s_round s) sc) s) = (s', o, r').
Proof.
  clear tdec spill cr. intros Hr Hp Eh Er. eapply react_core in Hr; [|reflexivity]. destruct Hr as [(Hsk & _)|(_ & r' & Hr & _)].
  { exfalso. destruct Hsk as [[? _]|[_ [? ?]]]; [congruence|done]. }
  apply choke_inv in Hr as [([?|?] & _)|[(_ & ? & _)|(_ & _ & Hr)]]; [congruence|lia|lia|]. rewrite Er in Hr. by exists r'.
Qed.
(** A choke is broadcast. *)
Definition nochoke (_ : st T) (o : list (action T)) (_ : st T) : Prop := forall sc, ABroadcast (MChoke sc) ∉ o.
Lemma nochoke_comp : comp nochoke.
Proof. clear lc tenc tdec spill cr. split; [intros s sc ?%elem_of_nil; done|]. intros s1 s2 s3 o1 o2 A B sc [Hi|Hi]%elem_of_app; [by eapply A|by eapply B]. Qed.
Ltac nb := let Hq := fresh "Hq" in intros; intros ?sc Hq; repeat (apply elem_of_cons in Hq as [?|Hq]; [done|]); by apply elem_of_nil in Hq.
Lemma nochoke_goto e stt : keeps nochoke (goto_new_height (T:=T) e stt).
Proof.
  clear lc tenc tdec spill cr. intros s s' o r Hg.
  apply goto_inv in Hg as [(? & -> & -> & _)|[(? & _ & -> & -> & _)|[(? & _ & -> & -> & _)|(? & _ & -> & tr & -> & Htr)]]]; try nb.
  intros sc [?|[(? & ? & ?)%elem_of_list_fmap|Hq]%elem_of_app]%elem_of_cons; try done.
  destruct Htr as [[-> _]|[-> _]]; [by apply elem_of_list_singleton in Hq|by apply elem_of_nil in Hq].
Qed.
Local Hint Resolve nochoke_goto : keepsdb.
Lemma nochoke_react e i : (forall h rd lr, i <> IEvent (EvBrake h rd lr)) -> keeps nochoke (react lc tenc e i).
Proof.
  clear tdec spill cr. intros Hi. apply (keeps_react _ _ _ nochoke_comp).
  - intros m ->. apply (keeps_on_msg _ _ nochoke_comp); [nb|]. keeps_go nochoke_comp; nb.
  - intros m _. keeps_go nochoke_comp; nb.
  - intros m _. keeps_go nochoke_comp; nb.
  - intros ev ->. destruct ev; [..|by destruct (Hi height round lock_round)|]; keeps_go nochoke_comp; nb.
Qed.
Lemma nochoke_check e : keeps nochoke (check_choke_above_threshold (T:=T) e).
Proof. clear lc tenc tdec spill cr. keeps_go nochoke_comp; nb. Qed.
Lemma nochoke_save e stp lr : keeps nochoke (save_wal_with_lock_round (T:=T) e stp lr).
Proof. clear lc tenc tdec spill cr. keeps_go nochoke_comp; nb. Qed.
Lemma brake_fwd e rd lr (s s' : st T) o r sc :
  handle_brake e rd lr s = (s', o, r) -> ABroadcast (MChoke sc) ∈ o ->
  ck_height (sc_choke sc) = s_height s /\ ck_round (sc_choke sc) = s_round s /\ AOwnChoke sc ∈ o /\
  exists o1 o2, o = o1 ++ o2 /\ check_choke_above_threshold e (set_s_chokes (cc_insert (s_chokes s) (s_round s) sc) s) = (s', o2, r) /\
    forall sc', AOwnChoke sc' ∈ o -> sc' = sc.
Proof.
  clear lc tenc tdec spill cr. intros Hb Hin. unfold handle_brake, get in Hb.
  destruct (negb _); [unfold fail in Hb; simplify_eq; by apply elem_of_nil in Hin|].
  destruct (cr_sign _ _) as [sig|] eqn:Es; [|unfold fail in Hb; simplify_eq; by apply elem_of_nil in Hin].
  cbv zeta in Hb. revert Hb. set (sc1 := mkSChoke _ _ _). intros Hb.
  apply bind_inv in Hb as [(u & s1 & o1 & o2 & H1 & Hb & ->)|[(x & H1 & ->)|(H1 & ->)]]; unfold emit in H1; simplify_eq.
  apply bind_inv in Hb as [(u' & s2 & o3 & o4 & H1 & Hb & ->)|[(x & H1 & ->)|(H1 & ->)]]; unfold modify in H1; simplify_eq.
  cbn [app] in Hin |- *. apply elem_of_cons in Hin as [?|Hin]; [done|].
  apply bind_inv in Hb as [(u1 & s2 & o5 & o6 & H1 & Hb & ->)|[(x & H1 & ->)|(H1 & ->)]]; pose proof (nochoke_save _ _ _ _ _ _ _ H1) as Hns; [|by apply Hns in Hin..].
  apply save_lr_inv in H1 as [-> Hsv].
  apply bind_inv in Hb as [(u2 & s3 & o7 & o8 & H2 & Hb & ->)|[(x & H2 & ->)|(H2 & ->)]]; unfold broadcast, emit in H2; [|done..]. injection H2 as <- <- <-.
  apply elem_of_app in Hin as [Hin|[Hin|Hin]%elem_of_app]; [by apply Hns in Hin| |by apply nochoke_check in Hb; apply Hb in Hin].
  apply elem_of_list_singleton in Hin. injection Hin as ->. split_and!; [done|done|by left|]. eexists (_ :: o5 ++ [_]), o8. split; [simpl; by rewrite <-app_assoc|]. split; [done|].
  intros sc' [Hx|[Hx|[Hx|Hx]%elem_of_app]%elem_of_app]%elem_of_cons.
  - by injection Hx.
  - exfalso. destruct (lock_to_save _ _); destruct Hsv as [-> _]; [by apply elem_of_list_singleton in Hx|by apply elem_of_nil in Hx].
  - by apply elem_of_list_singleton in Hx.
  - exfalso. apply check_choke_inv in Hb as [(_ & -> & _)|(k & l & sg & _ & _ & _ & _ & _ & [[-> _]|[-> _]])]; [by apply elem_of_nil in Hx..|by apply elem_of_list_singleton in Hx].
Qed.
Lemma choke_broadcast_step e i s s' o r sc :
  react lc tenc e i s = (s', o, r) -> ABroadcast (MChoke sc) ∈ o ->
  ck_height (sc_choke sc) = s_height s /\ ck_round (sc_choke sc) = s_round s /\ AOwnChoke sc ∈ o /\ (exists ev, i = IEvent ev) /\
  exists o1 o2 r', o = o1 ++ o2 /\ check_choke_above_threshold e (set_s_chokes (cc_insert (s_chokes s) (s_round s) sc) s) = (s', o2, r') /\
    forall sc', AOwnChoke sc' ∈ o -> sc' = sc.
Proof.
  clear tdec spill cr. intros Hr Hin.
  assert ((forall h rd lr, i <> IEvent (EvBrake h rd lr)) -> False) as Hq.
  { intros Hi. apply (nochoke_react _ _ Hi) in Hr. by apply Hr in Hin. }
  destruct i as [m|ev|rs|m]; try (exfalso; by apply Hq).
  destruct ev as [| | | |h rd lr|]; try (exfalso; by apply Hq).
  eapply react_core in Hr; [|reflexivity]. destruct Hr as [(_ & _ & -> & _)|(_ & r' & Hx & _)]; [by apply elem_of_nil in Hin|].
  unfold get in Hx. destruct (negb _); [unfold ret in Hx; injection Hx as _ <- _; by apply elem_of_nil in Hin|].
  destruct (brake_fwd _ _ _ _ _ _ _ _ Hx Hin) as (? & ? & ? & o1 & o2 & ? & ? & ?). split_and!; try done; [by eexists|]. by exists o1, o2, r'.
Qed.

(** ** Along a history *)
Lemma chk_since b cfg log n :
  noderun b cfg log n ->
  (forall e i s o r, NState e i s o r ∈ log -> exists s', react lc tenc e i s = (s', o, r) /\ s_height s' <= s_height (nd_st n) /\
     (s_height s' = s_height (nd_st n) -> s_power (nd_st n) = s_power s' /\ forall rd a, choker s' rd a -> choker (nd_st n) rd a)) /\
  (forall sc, AOwnChoke sc ∈ actions log -> ck_height (sc_choke sc) <= s_height (nd_st n) /\
     (ck_height (sc_choke sc) = s_height (nd_st n) -> choker (nd_st n) (ck_round (sc_choke sc)) (sc_addr sc))).
Proof.
  induction 1 as [n log Hs|log n l0 n' log' Hr [IH1 IH2] Hs].
  - unfold nstart in Hs. destruct (on_start _ _ _ _ _ _) as [[s0 o0] r0] eqn:E. injection Hs as <- <-. split.
    { intros e i s o r Hin. by apply elem_of_list_singleton in Hin. }
    unfold actions. simpl. rewrite app_nil_r. intros sc Hin.
    unfold on_start in E. apply logged_inv in E as (r' & E & _).
    apply start_inv in E as [(_ & [->|(t & -> & _)])|(w & bs & _ & _ & _ & [[_ ->]|(p & _ & Ht)])].
    1, 3: by apply elem_of_nil in Hin. { by apply elem_of_list_singleton in Hin. }
    apply chk_tail in Ht as (_ & _ & Ht). destruct (Ht _ Hin) as [H1 H2]. simpl. split; [lia|]. intros E. by apply H2.
  - apply nstep_cases in Hs as [(e1 & i1 & s1 & o1 & r1 & Es & Hrr & Es' & _ & ->)|(-> & _ & Hi & Ha)].
    + pose proof (chk_react _ _ _ _ _ _ Hrr) as (C1 & C2 & C3). rewrite Es'. split.
      * intros e i s o r [Hin|Hin]%elem_of_app.
        -- destruct (IH1 _ _ _ _ _ Hin) as (s' & H1 & H2 & H3). exists s'. split; [done|]. split; [lia|]. intros E.
           destruct C2 as [C2 C4]; [lia|]. destruct H3 as [H3 H4]; [lia|]. split; [congruence|auto].
        -- apply elem_of_list_singleton in Hin. injection Hin as -> -> -> -> ->. exists s1. split; [done|]. split; [done|]. auto.
      * intros sc Hin. rewrite actions_app in Hin. apply elem_of_app in Hin as [Hin|Hin].
        -- destruct (IH2 _ Hin) as [H1 H2]. split; [lia|]. intros E. apply C2; [lia|]. apply H2. lia.
        -- unfold actions in Hin. simpl in Hin. rewrite app_nil_r in Hin. destruct (C3 _ Hin) as [H1 H2]. split; [lia|]. intros E. apply H2. lia.
    + split.
      * intros e i s o r [Hin|Hin]%elem_of_app; [eauto|]. exfalso. assert ((e, i) ∈ inputs log') as Hx; [|rewrite Hi in Hx; by apply elem_of_nil in Hx].
        unfold inputs. apply elem_of_list_omap. by exists (NState e i s o r).
      * intros sc Hin. rewrite actions_app, Ha, app_nil_r in Hin. auto.
Qed.

(** ** Specification *)
(** The choke [sc] came to the state module, or it is the instance's own. *)
Definition choke_seen (log : list (nlog T)) (sc : schoke) : Prop :=
  (exists e s o r, NState e (IMsg (MChoke sc)) s o r ∈ log) \/ AOwnChoke sc ∈ actions log.
(** [a] choked round [r] of height [h] in time: its choke came to the state module while the
    instance was at this height and round, or it is the instance's own. *)
Definition choked_in_time (log : list (nlog T)) (h r : N) (a : bytes) : Prop :=
  exists sc, sc_addr sc = a /\ ck_height (sc_choke sc) = h /\ ck_round (sc_choke sc) = r /\
    ((exists e s o r', NState e (IMsg (MChoke sc)) s o r' ∈ log /\ s_height s = h /\ s_round s = r) \/
     AOwnChoke sc ∈ actions log).

(** C60. When a choke of the current height and round is counted, and more than two thirds of the
    validators in number choked this round in time, the instance orders its state machine to go to
    the next round, or to a later one, at this height. *)
Theorem C60_chokes_end_the_round :
  forall b cfg log n l1 e i s o r l2 Q,
    noderun b cfg log n -> log = (l1 ++ [NState e i s o r]) ++ l2 ->
    let now := l1 ++ [NState e i s o r] in
    s_power s = true ->
    (exists sc, i = IMsg (MChoke sc) /\ ck_height (sc_choke sc) = s_height s /\ ck_round (sc_choke sc) = s_round s \/
       ABroadcast (MChoke sc) ∈ o) ->
    NoDup Q -> (3 * length Q > 2 * auth_len (s_auth s))%nat ->
    (forall a, a ∈ Q -> choked_in_time now (s_height s) (s_round s) a) ->
    (forall sc, choke_seen now sc -> ck_round (sc_choke sc) + 1 < 2 ^ 64) ->
    (forall sigs who, is_Some (cr_aggregate (e_crypto e) sigs who)) ->
    exists k, s_round s < k /\ k < 2 ^ 64 /\ ATrigger (mk_trigger TContinueRound [] None k (s_height s)) ∈ o.
Proof.
  intros b cfg log n l1 e i s o r l2 Q Hrun Hl now Hp Htr Hn Hlen HQ Hrd Hagg.
  rewrite <-app_assoc in Hl. simpl in Hl.
  assert (l1 <> []) as Hne.
  { destruct (noderun_first _ _ _ _ _ _ _ _ _ Hrun) as (o0 & r0 & tl & E). intros ->. by rewrite E in Hl. }
  destruct (noderun_split _ _ _ _ _ _ _ _ _ _ _ _ Hrun Hl Hne) as (n1 & lb & n2 & Hr1 & Hst).
  pose proof (noderun_nostop _ _ _ _ _ _ _ _ _ Hr1) as (_ & _ & _ & _ & _ & _ & Hson & _).
  apply nstep_cases in Hst as [(e0 & i0 & s' & o0 & r0 & _ & Hre & Es' & _ & E)|(_ & _ & Hi & _)]; [|done].
  injection E as Ee <- Es0 <- <-. subst e s. set (s := nd_st n1) in *. set (e := env_at n1 e0) in *.
  assert (forall t, e_trigger e t = true) as Htrig by (intros; unfold e, env_at; simpl; exact Hson).
  pose proof (noderun_run _ _ _ _ _ _ _ _ _ Hr1) as Hrun1. apply run_run_inv in Hrun1 as [_ _ (co & Eco & Fco) _ _ _]. fold s in Eco.
  destruct (chk_since _ _ _ _ Hr1) as [Hs1 Hs2].
  assert (exists sc o1 o2 r', ck_round (sc_choke sc) = s_round s /\ choke_seen now sc /\
    o = o1 ++ o2 /\ check_choke_above_threshold e (set_s_chokes (cc_insert (s_chokes s) (s_round s) sc) s) = (s', o2, r') /\
    (forall sc', i = IMsg (MChoke sc') -> sc' = sc) /\ (forall sc', AOwnChoke sc' ∈ o -> sc' = sc)) as (sc & o1 & o2 & r' & Er & Hseen & Eo & Hck & Hu1 & Hu2).
  { destruct Htr as (sc & [(-> & Eh & Er)|Hb]).
    - destruct (choke_msg_step _ _ _ _ _ _ Hre Hp Eh Er) as [r' Hck]. exists sc, [], o, r'. split_and!; try done.
      + left. do 4 eexists. apply elem_of_app. right. by apply elem_of_list_singleton.
      + intros sc' E. by injection E.
      + intros sc' Hin. exfalso. apply check_choke_inv in Hck as [(_ & -> & _)|(k & l & sg & _ & _ & _ & _ & _ & [[-> _]|[-> _]])]; [by apply elem_of_nil in Hin..|by apply elem_of_list_singleton in Hin].
    - destruct (choke_broadcast_step _ _ _ _ _ _ _ Hre Hb) as (Eh & Er & Ho & [ev ->] & o1 & o2 & r' & Eo & Hck & Hu). exists sc, o1, o2, r'. split_and!; try done.
      right. unfold now. rewrite actions_app. apply elem_of_app. right. unfold actions. simpl. by rewrite app_nil_r. }
  set (s1 := set_s_chokes _ s) in *.
  assert (s_chokes s1 = cops (co ++ [CChoke (s_round s) sc])) as Ec1 by (unfold cops in *; rewrite foldl_snoc, <-Eco; done).
  destruct (check_fwd _ _ _ _ _ Q _ Hck Ec1 Hn) as (k & Hk & Ht & Hne'); try done.
  - intros a Ha. change (s_round s1) with (s_round s). apply choker_insert. destruct (HQ _ Ha) as (sc' & <- & Eh & Er' & Hc).
    destruct Hc as [(e1 & s2 & o3 & r3 & [Hin|Hin]%elem_of_app & Eh2 & Er2)|Hin].
    + left. destruct (Hs1 _ _ _ _ _ Hin) as (s3 & Hr3 & Hle & Hsame). pose proof (chk_react _ _ _ _ _ _ Hr3) as (C1 & C2 & _).
      assert (s_height s3 = s_height s) as E3 by (fold s in Hle; lia). fold s in Hsame. destruct (Hsame E3) as [Hpw Hch].
      destruct C2 as [Hpw2 _]; [congruence|]. destruct (choke_msg_step _ _ _ _ _ _ Hr3) as [r4 Hck3]; [congruence..|].
      apply Hch. rewrite <-Er2. enough (choker s3 (s_round s2) (sc_addr sc')) by done.
      assert (choker (set_s_chokes (cc_insert (s_chokes s2) (s_round s2) sc') s2) (s_round s2) (sc_addr sc')) as Hx by (apply choker_insert; by right).
      apply check_choke_inv in Hck3 as [(-> & _)|(k & l & sg & _ & _ & _ & _ & -> & _)]; done.
    + right. apply elem_of_list_singleton in Hin. injection Hin as _ Hin _ _ _. split; [done|]. by rewrite (Hu1 sc').
    + unfold now in Hin. rewrite actions_app in Hin. apply elem_of_app in Hin as [Hin|Hin].
      * left. rewrite <-Er'. by apply Hs2.
      * right. unfold actions in Hin. simpl in Hin. rewrite app_nil_r in Hin. split; [done|]. by rewrite (Hu2 sc').
  - assert (exists sc', choke_seen now sc' /\ ck_round (sc_choke sc') = k) as (sc' & Hsc & Ek).
    { assert (exists sc', CChoke k sc' ∈ co ++ [CChoke (s_round s) sc]) as (sc' & Hin).
      { clear -Hne'. generalize dependent (co ++ [CChoke (s_round s) sc]). intros ops. unfold chokers. induction ops as [|op ops IH] using rev_ind; [done|].
        rewrite foldl_snoc. intros Hx. destruct (decide (foldl (chokers_step k) [] ops = [])) as [E|E].
        - rewrite E in Hx. destruct op as [r0 sc0|r0 q|]; simpl in Hx; try done. destruct (N.eqb_spec k r0) as [<-|]; [|done].
          exists sc0. apply elem_of_app. right. by apply elem_of_list_singleton.
        - destruct (IH E) as [sc' ?]. exists sc'. apply elem_of_app. by left. }
      exists sc'. apply elem_of_app in Hin as [Hin|Hin].
      - apply (proj1 (Forall_forall _ _) Fco) in Hin as [Ek Hin]. split; [|done]. destruct Hin as [[e1 Hin]|Hin].
        + left. unfold inputs in Hin. apply elem_of_list_omap in Hin as (x & Hx & E). destruct x as [| |e2 i2 s2 o3 r3| | | | | |]; try done. injection E as -> ->.
          do 4 eexists. apply elem_of_app. left. exact Hx.
        + right. unfold now. rewrite actions_app. apply elem_of_app. by left.
      - apply elem_of_list_singleton in Hin. injection Hin as -> ->. done. }
    specialize (Hrd _ Hsc). rewrite Ek in Hrd. exists (k + 1). change (s_round s1) with (s_round s) in Hk. split; [lia|]. split; [done|].
    unfold round_trigger in Ht. rewrite w64_small in Ht by (unfold U64; lia). rewrite Eo. apply elem_of_app. by right.
Qed.
End Q.

(** ** The state machine *)
Lemma smr_rounds t m m' o r :
  smr_step open_chans t m = (m', o, r) -> not_wal t -> (forall s, t_type t = TNewHeight s -> ss_height s <= m_height m) ->
  m_round m' = m_round m \/ exists lr lp from iv cf, EvNewRound (m_height m) (m_round m') lr lp from iv cf ∈ to_state o.
Proof.
  intros H Hw Hn. unfold not_wal, open_chans in *. smr_go H; try congruence; try (exfalso; specialize (Hn _ eq_refl); lia).
  all: try (by left).
  all: right; do 5 eexists; unfold to_state; simpl; by left.
Qed.
Lemma smr_continues t k h m m' o r :
  t = mk_trigger TContinueRound [] None k h -> smr_step open_chans t m = (m', o, r) -> m_height m = h -> m_round m < k -> k < 2 ^ 64 ->
  exists lr lp from iv cf, EvNewRound h k lr lp from iv cf ∈ to_state o.
Proof.
  intros -> Hs Hh Hr Hk. unfold smr_step, mk_trigger in Hs. simpl in Hs. unfold sbind, handle_continue_round, sget in Hs.
  rewrite <-Hh, N.eqb_refl in Hs. destruct (N.leb_spec k (m_round m)); [lia|]. cbn [negb orb] in Hs.
  unfold sbind, sget, smod, throw_event, sret, open_chans in Hs. simpl in Hs. injection Hs as _ <- _.
  do 5 eexists. unfold to_state. simpl. rewrite <-Hh. replace (k - 1 + 1) with k by lia. rewrite w64_small by (unfold U64; lia). by left.
Qed.

Section X.
Context {T : Type} `{EqDecision T}.
Context (lc : lcfg) (tenc : T -> bytes) (tdec : bytes -> option T) (spill : bool) (cr : crypto).
Context (b : boot T) (cfg : option durcfg) (w : option (walinfo T)).
Context (x : nat -> node T) (lab : nat -> option (label T)) (lg : nat -> list (nlog T)).
Context (Hex : execution lc tenc tdec spill cr b cfg x lab lg) (Hfair : fair x lab lg) (Hboot : boots tdec spill b w).
Context (h : N) (Hh : 0 < h).
Local Notation at_h i := (s_height (nd_st (x i)) = h).
Local Notation enters_from k j := (exists k' lr lp from iv cf, k <= k' /\ orders (lg j) (EvNewRound h k' lr lp from iv cf)).
Set Default Proof Using "Type Hex Hfair Hboot Hh".
Lemma round_ordered i k : at_h i -> m_height (nd_smr (x i)) = h -> m_round (nd_smr (x i)) < k -> k < 2 ^ 64 ->
  mk_trigger TContinueRound [] None k h ∈ nd_trig (x i) ->
  exists j, (i <= j)%nat /\ (h < s_height (nd_st (x (S j))) \/ enters_from k j).
Proof.
  intros Ha Hm Hs Hk (l1 & l2 & Ht)%elem_of_list_split. remember (mk_trigger TContinueRound [] None k h) as t eqn:Heqt.
  apply (drain (fun p j => at_h j /\ m_height (nd_smr (x j)) = h /\ m_round (nd_smr (x j)) < k /\ exists l1 l2, nd_trig (x j) = l1 ++ t :: l2 /\ length l1 = p)
           (fun j => h < s_height (nd_st (x (S j))) \/ enters_from k j) (fun j => lab j = Some LSmr)) with (p := length l1).
  - clear i Ha Hm Hs l1 l2 Ht. intros p j (Ha & Hm & Hs & l1 & l2 & Ht & Hp).
    destruct (ex_state _ _ _ _ _ _ _ _ _ _ _ Hex Hfair Hboot j) as [(e & inp & o & r & n0 & _ & _ & _ & E1 & E2 & El)|(_ & E1 & [(t0 & o & r & El & Elg & Et & Hst)|(El & E2 & more & E3)])].
    + destruct (ex_kept _ _ _ _ _ _ _ _ _ _ _ Hex Hfair Hboot j) as [Hkp _]. destruct (decide (at_h (S j))) as [Ha'|Hn]; [right|left; left; lia].
      exists p. split; [lia|split; [|done]]. rewrite E1. split_and!; try done. exists l1, (l2 ++ trigs_of o). by rewrite E2, Ht, <-app_assoc.
    + rewrite Ht in Et. destruct (ex_trig _ _ _ _ _ _ _ _ _ _ _ Hex Hfair Hboot h Hh j t0) as [Hnw Hnh]; [done|rewrite Ht; destruct l1; injection Et as -> _; by left|done|].
      destruct (smr_same_height _ _ _ _ _ Hst Hnw Hnh) as [Hh' _].
      assert (forall k' lr lp from iv cf, k <= k' -> EvNewRound h k' lr lp from iv cf ∈ to_state o -> enters_from k j) as Hord.
      { intros k' lr lp from iv cf Hkk Hz. exists k', lr, lp, from, iv, cf. split; [done|]. exists t0, (nd_smr (x j)), o, r. rewrite Elg. split; [by left|done]. }
      destruct (smr_rounds _ _ _ _ _ Hst Hnw Hnh) as [Er|(lr & lp & from & iv & cf & Hev)].
      2: { rewrite Hm in Hev. destruct (decide (k <= m_round (nd_smr (x (S j))))) as [Hge|Hlt]; [left; right; by eapply Hord|].
           destruct l1 as [|t1 l1]; injection Et as -> Et.
           - left. right. destruct (smr_continues _ _ _ _ _ _ _ Heqt Hst Hm Hs Hk) as (? & ? & ? & ? & ? & ?). by eapply Hord.
           - right. exists (length l1). simpl in Hp. split; [lia|split; [|lia]]. rewrite E1, Hh'. split_and!; try done; [lia|]. by exists l1, l2. }
      destruct l1 as [|t1 l1]; injection Et as -> Et.
      * left. right. destruct (smr_continues _ _ _ _ _ _ _ Heqt Hst Hm Hs Hk) as (? & ? & ? & ? & ? & ?). by eapply Hord.
      * right. exists (length l1). simpl in Hp. split; [lia|split; [|lia]]. rewrite E1, Hh', Er. split_and!; try done. by exists l1, l2.
    + right. exists p. split; [lia|split; [|done]]. rewrite E1, E2. split_and!; try done. exists l1, (l2 ++ more). by rewrite E3, Ht, <-app_assoc.
  - intros p j (_ & _ & _ & l3 & l4 & E & _). apply (fr_smr _ _ _ Hfair). rewrite E. by destruct l3.
  - split_and!; try done. by exists l1, l2.
Qed.
End X.
Set Default Proof Using "Type".

Section C60.
Context {T : Type} `{EqDecision T}.
Context (lc : lcfg) (tenc : T -> bytes) (tdec : bytes -> option T) (spill : bool) (cr : crypto).

Lemma new_round_keeps e nr lr lp from (s s' : st T) o r : handle_new_round lc tenc e nr lr lp from s = (s', o, r) -> s_round s' = nr /\ s_height s' = s_height s.
Proof.
  clear. intros Hn. apply new_round_inv in Hn as (o1 & _ & [(_ & _ & [[-> _]|(uf & -> & _)])|(uf & l & _ & _ & _ & [(_ & _ & -> & _)|(_ & o2 & _ & Hp)])]); try done.
  pose (P := fun (s : st T) (_ : list (action T)) (s' : st T) => s_round s' = s_round s /\ s_height s' = s_height s).
  assert (comp P) as Hc by (split; [done|]; intros ? ? ? ? ? [? ?] [? ?]; split; congruence).
  assert (keeps P (propose_part lc tenc e lr lp)) as Hk; [|apply Hk in Hp as [-> ->]; done].
  unfold propose_part. keeps_go Hc; try done. all: repeat case_match; done.
Qed.
(** Once the order is given, the instance enters the next round, or a later one of the height. *)
Theorem C60_the_next_round_is_entered b cfg w x lab lg :
  execution lc tenc tdec spill cr b cfg x lab lg -> fair x lab lg -> boots tdec spill b w ->
  forall i e inp s o r k,
    lg i = [NState e inp s o r] -> ATrigger (mk_trigger TContinueRound [] None k (s_height s)) ∈ o -> k < 2 ^ 64 ->
    s_power s = true -> 0 < s_height s -> m_height (nd_smr (x i)) = s_height s -> m_round (nd_smr (x i)) < k ->
    exists j, (i < j)%nat /\
      (s_height s < s_height (nd_st (x j)) \/
       s_height (nd_st (x j)) = s_height s /\ k <= s_round (nd_st (x j))).
Proof.
  intros Hex Hf Hb i e inp s o r k Elg Ht Hk Hp Hh Hm Hr.
  destruct (ex_state _ _ _ _ _ _ _ _ _ _ _ Hex Hf Hb i) as [(e0 & inp0 & o0 & r0 & n0 & E & Hpop & Hre & E1 & E2 & _)|(Hno & _)].
  2: { exfalso. eapply Hno. rewrite Elg. by left. }
  rewrite Elg in E. injection E as -> -> -> -> ->. set (h := s_height (nd_st (x i))) in *.
  destruct (decide (s_height (nd_st (x (S i))) = h)) as [Heq|Hne].
  2: { exists (S i). split; [lia|]. left. pose proof (kept_react _ _ _ _ _ _ _ _ Hre) as [Hkp _]. fold h in Hkp. lia. }
  destruct (round_ordered _ _ _ _ _ _ _ _ _ _ _ Hex Hf Hb h Hh (S i) k) as (j & Hij & [Hgt|(k' & lr & lp & from & iv & cf & Hkk & Ho)]); try done; [by rewrite E1..| | |].
  { rewrite E2. apply elem_of_app. right. by apply trigs_of_in. }
  { exists (S j). split; [lia|by left]. }
  destruct (order_treated _ _ _ _ _ _ _ _ _ _ Hex Hf j _ Ho) as (j' & Hjj & e' & s' & o' & r' & Hin).
  destruct (ex_state _ _ _ _ _ _ _ _ _ _ _ Hex Hf Hb j') as [(e1 & inp1 & o1 & r1 & n1 & E & _ & Hr1 & _)|(Hno & _)]; [|by apply Hno in Hin].
  rewrite E in Hin. apply elem_of_list_singleton in Hin. injection Hin as -> <- -> -> ->.
  pose proof (ex_height _ _ _ _ _ _ _ _ _ _ _ Hex Hf Hb (S i) j' ltac:(lia)) as Hge.
  destruct (decide (s_height (nd_st (x j')) = h)) as [Hej|Hnj]; [|exists j'; split; [lia|left; lia]].
  exists (S j'). split; [lia|]. right.
  assert (s_power (nd_st (x j')) = true) as Hpj.
  { assert (forall k, (i <= k)%nat -> (k <= j')%nat -> s_power (nd_st (x k)) = true) as Hpw; [|apply Hpw; lia].
    intros k0 H1. induction H1 as [|k0 H1 IH]; intros H2; [done|].
    pose proof (ex_height _ _ _ _ _ _ _ _ _ _ _ Hex Hf Hb i k0 H1) as G1. pose proof (ex_height _ _ _ _ _ _ _ _ _ _ _ Hex Hf Hb (S k0) j' H2) as G2. fold h in G1.
    destruct (ex_kept _ _ _ _ _ _ _ _ _ _ _ Hex Hf Hb k0) as [G3 G4]. destruct G4 as (G4 & _); [lia|]. rewrite G4. apply IH. lia. }
  destruct (ex_reach _ _ _ _ _ _ _ _ _ _ _ Hex Hf Hb j') as (log' & Hrun' & _). apply noderun_nostop in Hrun' as (Hst' & _).
  eapply react_core in Hr1; [|reflexivity]. destruct Hr1 as [(Hsk & _)|(_ & r2 & Hx & _)].
  { exfalso. destruct Hsk as [[Hsk _]|Hsk]; simpl in *; [congruence|]. destruct Hsk as [? _]. congruence. }
  apply new_round_keeps in Hx as [H1 H2]. rewrite H1, H2. done.
Qed.
End C60.
Print Assumptions C60_chokes_end_the_round.
Print Assumptions C60_the_next_round_is_entered.
