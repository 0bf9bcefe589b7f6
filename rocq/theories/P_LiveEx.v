(** * P_LiveEx: an endless fair execution (for C51). *)
From Verif Require Export P_Live P_Votes NodeEx.
Set Default Proof Using "Type".

(** A hears of height 1 and of nothing else: its timeouts expire, it votes for nothing, and it
    chokes round 0. From then on it chokes again and again. *)
Definition alone : list (label bytes) :=
  let e := nenv nA true in
  let timeout := [LArm; LExpire 0; LFire; LSmr] in
  status_through nA (nstatus 1) ++ [LSmr; LEvent e] ++ timeout ++ [LEvent e] ++ timeout ++ [LEvent e] ++ timeout ++ [LEvent e].
Definition stuck : node bytes := ndnode nA alone.
Definition stuck_smr : smr := nd_smr stuck.
Definition stuck_tm : timer := nd_tm stuck.
Definition again : smr_event := EvBrake 1 0 None.
Definition stuck_in (s : st bytes) (evs tevs : list smr_event) (sleeps fired : list smr_event) (trig : list trigger) : node bytes :=
  mkNode s true stuck_smr true stuck_tm true [] trig evs tevs fired [] [] [] [] sleeps.
Lemma alone_ok : ndok nA alone = true.
Proof. vm_compute. reflexivity. Qed.
Lemma alone_range : in_rangeb (ndlog nA alone) = true.
Proof. vm_compute. reflexivity. Qed.
Lemma alone_ends :
  (nd_on stuck, nd_smr_on stuck, nd_tm_on stuck, nd_raw stuck, nd_trig stuck, nd_evs stuck, nd_tevs stuck) = (true, true, true, [], [], [], [again]) /\
  (nd_fired stuck, nd_queue stuck, nd_resp stuck, nd_verifs stuck, nd_checks stuck, nd_sleeps stuck) = ([], [], [], [], [], []).
Proof. vm_compute. auto. Qed.
Lemma stuck_eq : stuck = stuck_in (nd_st stuck) [] [again] [] [] [].
Proof.
  destruct alone_ends as [H1 H2]. unfold stuck_in, stuck_smr, stuck_tm. destruct stuck. simpl in *. injection H1 as -> -> -> -> -> -> ->.
  injection H2 as -> -> -> -> -> ->. reflexivity.
Qed.
Definition expiry : trigger := mkTrigger TBrakeTimeout SrcTimer [] None 0 1 None.
Lemma stuck_smr_step : smr_step open_chans expiry stuck_smr = (stuck_smr, [ToState again; ToTimer again], Ok true).
Proof. vm_compute. reflexivity. Qed.
Lemma stuck_trigger : timer_trigger stuck_tm again = Ok (Some expiry).
Proof. vm_compute. reflexivity. Qed.
Lemma stuck_timer : set_timer stuck_tm again = (stuck_tm, Ok (Some (900, again))).
Proof. vm_compute. reflexivity. Qed.

(** Choking again what was choked changes nothing. *)
Definition my_choke (me : bytes) (s : st bytes) : schoke :=
  let ck := mkChoke (s_height s) (s_round s) (s_from s) in
  mkSChoke (me ++ enc (hashchoke_rlp (choke_to_hash ck))) ck (s_addr s).
Definition my_save (s : st bytes) : walinfo bytes := mkWalInfo (s_height s) (s_round s) SBrake None (s_from s).
Lemma choke_again me on s c :
  s_stopped s = false -> s_power s = true -> s_height s = 1 -> s_round s = 0 ->
  cc_chokes (s_chokes s) !! 0 = Some c -> c !! s_addr s = Some (my_choke me s) ->
  cc_max_round (s_chokes s) (auth_len (s_auth s)) = None ->
  react nlc ntenc (mkEnv (ncr me) (e_get_block (nenv me true)) (e_commit (nenv me true)) (e_save (nenv me true)) (fun _ => on)) (IEvent again) s =
    (s, [AOwnChoke (my_choke me s); ASave (my_save s) true; ABroadcast (MChoke (my_choke me s))], Ok true).
Proof.
  intros E1 E2 E3 E4 E5 E6 E7. 
  assert (set_s_chokes (cc_insert (s_chokes s) (s_round s) (my_choke me s)) s = s) as Es.
  { unfold cc_insert. change (sc_addr (my_choke me s)) with (s_addr s). rewrite E4, E5. simpl. rewrite (insert_id c), insert_id by done.
    destruct s as [? ? ? ? ? [] ? ? ? ? ? ? ? ? ?]. done. }
  assert (forall on, handle_brake (mkEnv (ncr me) (e_get_block (nenv me true)) (e_commit (nenv me true)) (e_save (nenv me true)) on) 0 None s =
    (s, [AOwnChoke (my_choke me s); ASave (my_save s) true; ABroadcast (MChoke (my_choke me s))], Ok tt)) as Hb.
  { intros g. unfold handle_brake, get. rewrite E4. cbn [N.eqb negb e_crypto ncr cr_sign cr_hash id].
    change (mkSChoke _ _ (s_addr s)) with (mkSChoke (me ++ enc (hashchoke_rlp (choke_to_hash (mkChoke (s_height s) 0 (s_from s))))) (mkChoke (s_height s) 0 (s_from s)) (s_addr s)).
    assert (mkSChoke (me ++ enc (hashchoke_rlp (choke_to_hash (mkChoke (s_height s) 0 (s_from s))))) (mkChoke (s_height s) 0 (s_from s)) (s_addr s) = my_choke me s) as ->
      by (unfold my_choke; by rewrite E4).
    unfold bind, emit, modify. rewrite Es.
    unfold save_wal_with_lock_round, save_wal, broadcast, get, emit, bind, ret. cbn [e_save nenv].
    unfold check_choke_above_threshold, get. rewrite E7. reflexivity. }
  unfold react, on_event, get. rewrite E1, E2. cbn [negb]. unfold bind, logged, handle_event, get, again. rewrite E3. cbn [N.eqb Pos.eqb negb].
  unfold logged. rewrite Hb. reflexivity.
Qed.
Definition choking (me : bytes) (s : st bytes) : Prop :=
  (s_stopped s, s_power s, s_height s, s_round s) = (false, true, 1, 0) /\
  (cc_chokes (s_chokes s) !! 0 ≫= fun c => c !! s_addr s) = Some (my_choke me s) /\
  cc_max_round (s_chokes s) (auth_len (s_auth s)) = None.
Lemma stuck_state : choking nA (nd_st stuck).
Proof. vm_compute. auto. Qed.
Definition chokes_out (s : st bytes) : list (action bytes) :=
  [AOwnChoke (my_choke nA s); ASave (my_save s) true; ABroadcast (MChoke (my_choke nA s))].
Definition live_env : env bytes :=
  mkEnv (ncr nA) (e_get_block (nenv nA true)) (e_commit (nenv nA true)) (e_save (nenv nA true)) (fun _ => true).
Lemma stuck_react s : choking nA s -> react nlc ntenc live_env (IEvent again) s = (s, chokes_out s, Ok true).
Proof.
  intros (H1 & H2 & H3). injection H1 as ? ? ? ?. destruct (cc_chokes (s_chokes s) !! 0) as [c|] eqn:E; [|done].
  by apply (choke_again _ _ _ c).
Qed.

(** Its five moves, again and again. *)
Lemma expiry_range : trig_in_range expiry.
Proof. by vm_compute. Qed.
Opaque stuck_smr stuck_tm.
Section Turns.
Context (s : st bytes).
Definition turn (i : nat) : node bytes * label bytes * list (nlog bytes) :=
  match (i mod 5)%nat with
  | 0%nat => (stuck_in s [] [again] [] [] [], LArm, [NArm again])
  | 1%nat => (stuck_in s [] [] [again] [] [], LExpire 0, [NExpire again])
  | 2%nat => (stuck_in s [] [] [] [again] [], LFire, [NFire again])
  | 3%nat => (stuck_in s [] [] [] [] [expiry], LSmr, [NSmr expiry stuck_smr [ToState again; ToTimer again] (Ok true)])
  | _ => (stuck_in s [again] [again] [] [] [], LEvent (nenv nA true), [NState live_env (IEvent again) s (chokes_out s) (Ok true)])
  end.
Definition tn i := (turn i).1.1.
Definition tl i := Some (turn i).1.2.
Definition tg i := (turn i).2.
Lemma turn_cases i :
  exists k, i = (k + 5 * (i / 5))%nat /\ ((k = 0 \/ k = 1 \/ k = 2 \/ k = 3 \/ k = 4)%nat).
Proof. exists (i mod 5)%nat. pose proof (Nat.div_mod i 5 ltac:(lia)). pose proof (Nat.mod_upper_bound i 5 ltac:(lia)). lia. Qed.
Lemma turn_at k q : turn (k + 5 * q) = turn k.
Proof. unfold turn. by rewrite Nat.mul_comm, Nat.mod_add by lia. Qed.
Lemma turn_step i : choking nA s -> nstep nlc ntenc (ncr nA) (turn i).1.2 (tn i) = Some (tn (S i), tg i).
Proof.
  intros Hc. destruct (turn_cases i) as (k & E & Hk). unfold tn, tg. rewrite E. change (S (k + 5 * (i / 5))) with (S k + 5 * (i / 5))%nat. rewrite !turn_at. clear E.
  unfold stuck_in, tn, turn in *.
  destruct_or! Hk; subst k; cbn -[react smr_step timer_trigger set_timer chokes_out live_env].
  - unfold arm_move. change again with (EvBrake 1 0 None) at 1. cbn -[set_timer]. change (EvBrake 1 0 None) with again.
    rewrite stuck_timer. reflexivity.
  - reflexivity.
  - unfold fire_move. cbn -[timer_trigger]. rewrite stuck_trigger. reflexivity.
  - unfold smr_move. cbn -[smr_step]. change (mkChans true true) with open_chans. rewrite stuck_smr_step. reflexivity.
  - unfold state_move. change (env_at _ _) with live_env. cbn -[react live_env chokes_out]. rewrite stuck_react by done. reflexivity.
Qed.
Lemma turn_again k i : exists j, (i <= j)%nat /\ turn j = turn k.
Proof. exists (k + 5 * i)%nat. split; [lia|apply turn_at]. Qed.
Lemma turns_execute : choking nA s -> (exists log, ndrun nA log (tn 0) /\ smr_in_range log) ->
  0 < m_height stuck_smr /\ m_step stuck_smr <> SCommit ->
  execution nlc ntenc ntdec true (ncr nA) (nboot nA None) None tn tl tg /\ fair tn tl tg /\ boots ntdec true (nboot nA None) None /\
  (forall i, 0 < m_height (nd_smr (tn i)) /\ m_step (nd_smr (tn i)) <> SCommit) /\
  (forall i, exists j, (i <= j)%nat /\ obeys (tg j) again).
Proof.
  intros Hc Hst H0. split; [|split; [|split; [|split]]].
  - split; [done| | |].
    + intros i. by apply turn_step.
    + intros i. unfold tg. destruct (turn_cases i) as (k & -> & Hk). rewrite turn_at.
      destruct_or! Hk; subst k.
      all: unfold turn.
      all: cbn [Nat.modulo Nat.divmod fst snd Nat.sub].
      all: intros t m o r Hin.
      all: apply elem_of_list_singleton in Hin.
      1-3, 5: discriminate Hin.
      assert (t = expiry) as -> by congruence.
      exact expiry_range.
    + intros i. unfold tn. destruct (turn_cases i) as (k & -> & Hk). rewrite turn_at. destruct_or! Hk; subst k; reflexivity.
  - split.
    + intros i _. destruct (turn_again 3 i) as (j & ? & E). exists j. split; [done|]. unfold tl. by rewrite E.
    + intros i _. destruct (turn_again 0 i) as (j & ? & E). exists j. split; [done|]. unfold tl. by rewrite E.
    + intros i _. destruct (turn_again 2 i) as (j & ? & E). exists j. split; [done|]. unfold tl. by rewrite E.
    + intros i _. destruct (turn_again 4 i) as (j & ? & E). exists j, (nenv nA true). split; [done|]. unfold tl. by rewrite E.
    + intros i e He. assert (e = again) as ->.
      { revert He. unfold tn. destruct (turn_cases i) as (k & -> & Hk). rewrite turn_at.
        destruct_or! Hk; subst k; intros He; (by apply elem_of_nil in He) || by apply elem_of_list_singleton in He. }
      destruct (turn_again 1 i) as (j & ? & E). exists j. split; [done|]. unfold tg. rewrite E. by left.
  - reflexivity.
  - intros i. unfold tn. destruct (turn_cases i) as (k & -> & Hk). rewrite turn_at.
    destruct_or! Hk; subst k; exact H0.
  - intros i. destruct (turn_again 4 i) as (j & ? & E). exists j. split; [done|]. unfold tg. rewrite E. do 4 eexists. by left.
Qed.
End Turns.
Transparent stuck_smr stuck_tm.
Example stuck_execution : let s := nd_st stuck in
  execution nlc ntenc ntdec true (ncr nA) (nboot nA None) None (tn s) (tl s) (tg s) /\ fair (tn s) (tl s) (tg s) /\
  boots ntdec true (nboot nA None) None /\
  (forall i, 0 < m_height (nd_smr (tn s i)) /\ m_step (nd_smr (tn s i)) <> SCommit) /\
  (forall i, exists j, (i <= j)%nat /\ obeys (tg s j) again).
Proof.
  intros s. apply turns_execute; [apply stuck_state| |by vm_compute].
  exists (ndlog nA alone). split; [|apply in_rangeb_ok, alone_range].
  change (tn s 0) with (stuck_in s [] [again] [] [] []). unfold s. rewrite <-stuck_eq. apply ndok_run, alone_ok.
Qed.
