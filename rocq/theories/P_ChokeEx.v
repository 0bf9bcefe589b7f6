(** * P_ChokeEx: an endless fair execution that meets the hypotheses of P_Choke (C60). *)
From Verif Require Export P_Choke P_AnswerEx.
Set Default Proof Using "Type".

(** A waits in round 0 of height 1; B and C choke, and D's choke waits for the state module. *)
Definition nvchoke (a : bytes) : omsg bytes := MChoke (nchoke a 1 0 (UFPrecommit mock_init_qc)).
Definition until_choked : list (label bytes) :=
  let e := nenv nA true in
  status_through nA (nstatus 1) ++ [LSmr; LEvent e; LArm] ++ through nA (nvchoke nB) ++ through nA (nvchoke nC) ++
  [LSend (nvchoke nD); LRaw e; LVerify 0].
(** Then C leads round 1, and A follows it to the commit of its block. *)
Definition entered_then : list (label bytes) :=
  let e := nenv nA true in
  [LSmr; LEvent e; LArm] ++ through nA (MProposal (nprop nC 1 1 blk None)) ++ [LSmr; LArm; LEvent e; LCheck 0 true; LResp e] ++
  through nA (MAgg (nqc xe0 [nA; nB; nC] nC 1 1 Prevote hsh)) ++ [LSmr; LEvent e; LArm] ++
  through nA (MAgg (nqc xe0 [nA; nB; nC] nC 1 1 Precommit hsh)) ++ [LSmr; LArm; LEvent no_answer] ++
  [LExpire 0; LFire; LExpire 0; LFire; LExpire 0; LFire; LExpire 0; LFire; LSmr; LSmr; LSmr].
Notation choked_then := (LMsg (nenv nA true) :: entered_then).
Definition knode : node bytes := ndnode nA until_choked.
Definition klog : list (nlog bytes) := ndlog nA until_choked.
Lemma until_choked_ok : ndok nA until_choked = true. Proof. vm_compute. reflexivity. Qed.
Lemma until_choked_range : in_rangeb klog = true. Proof. vm_compute. reflexivity. Qed.
Lemma choked_sched : schedb (ncr nA) choked_then knode = true. Proof. vm_compute. reflexivity. Qed.
Lemma knode_runs : ndrun nA klog knode.
Proof. exact (ndok_run _ _ until_choked_ok). Qed.

Definition chokedb (log : list (nlog bytes)) (h r : N) (a : bytes) : bool :=
  existsb (fun g => match g with
                    | NState _ (IMsg (MChoke sc)) s _ _ => bool_decide (sc_addr sc = a) && (ck_height (sc_choke sc) =? h) && (ck_round (sc_choke sc) =? r) &&
                        (s_height s =? h) && (s_round s =? r)
                    | _ => false end) log.
Lemma chokedb_ok log h r a : chokedb log h r a = true -> choked_in_time log h r a.
Proof.
  intros (g & Hg & Hb)%existsb_exists; apply elem_of_list_In in Hg.
  destruct g as [| |e i s o r0| | | | | |]; try done. destruct i; try done. destruct m as [| | | |sc|]; try done.
  rewrite !andb_true_iff, !bool_decide_eq_true, !N.eqb_eq in Hb. destruct Hb as ((((H1 & H2) & H3) & H4) & H5).
  exists sc. split; [done|]. split; [done|]. split; [done|]. left. exists e, s, o, r0. done.
Qed.
Definition low_chokes (log : list (nlog bytes)) : bool :=
  forallb (fun g => match g with NState _ (IMsg (MChoke sc)) _ _ _ => ck_round (sc_choke sc) + 1 <? 2 ^ 64 | _ => true end) log &&
  forallb (fun g => match g with AOwnChoke sc => ck_round (sc_choke sc) + 1 <? 2 ^ 64 | _ => true end) (actions log).
Lemma low_chokes_ok log : low_chokes log = true -> forall sc, choke_seen log sc -> ck_round (sc_choke sc) + 1 < 2 ^ 64.
Proof.
  intros [H1 H2]%andb_true_iff sc [(e & s & o & r & Hin)|Hin]; rewrite forallb_forall in H1, H2; apply elem_of_list_In in Hin.
  - apply H1 in Hin. by apply N.ltb_lt in Hin.
  - apply H2 in Hin. by apply N.ltb_lt in Hin.
Qed.
Definition choked_now (n : node bytes) (g : list (nlog bytes)) : bool :=
  match g with
  | NState e (IMsg (MChoke sc)) s o _ :: [] =>
      (ck_height (sc_choke sc) =? s_height s) && (ck_round (sc_choke sc) =? s_round s) &&
      s_power s && (s_height s =? 1) && (s_round s =? 0) && (auth_len (s_auth s) =? 4)%nat &&
      existsb (fun a => match a with ATrigger t => bool_decide (t = mk_trigger TContinueRound [] None 1 1) | _ => false end) o &&
      (m_height (nd_smr n) =? 1) && (m_round (nd_smr n) =? 0)
  | _ => false
  end.
Lemma choked_now_ok : choked_now knode (sg (ncr nA) choked_then knode 0) = true. Proof. vm_compute. reflexivity. Qed.
Lemma choked_from (n : node bytes) g : choked_now n g = true ->
  exists e sc s o r, g = [NState e (IMsg (MChoke sc)) s o r] /\ ck_height (sc_choke sc) = s_height s /\ ck_round (sc_choke sc) = s_round s /\
    s_power s = true /\ s_height s = 1 /\ s_round s = 0 /\ auth_len (s_auth s) = 4%nat /\
    ATrigger (mk_trigger TContinueRound [] None 1 1) ∈ o /\ m_height (nd_smr n) = 1 /\ m_round (nd_smr n) = 0.
Proof.
  unfold choked_now. destruct g as [|[| |e i s o r| | | | | |] [|g0 g]]; try done; [|by destruct i as [| | |]; try done; destruct m]. destruct i; try done; destruct m; try done.
  rewrite !andb_true_iff, !N.eqb_eq, Nat.eqb_eq. intros ((((((((H1 & H2) & H3) & H4) & H5) & H6) & (a & Ha & Hc)%existsb_exists) & H8) & H9).
  apply elem_of_list_In in Ha. destruct a; try done. apply bool_decide_eq_true in Hc as ->. do 5 eexists. split; [reflexivity|]. done.
Qed.
Lemma kchoked : forallb (chokedb (klog ++ (sg (ncr nA) choked_then knode 0)) 1 0) [nB; nC; nD] = true. Proof. vm_compute. reflexivity. Qed.
Lemma klow : low_chokes (klog ++ (sg (ncr nA) choked_then knode 0)) = true. Proof. vm_compute. reflexivity. Qed.
Lemma kdup : NoDup [nB; nC; nD].
Proof. apply (bool_decide_unpack _). vm_compute. exact I. Qed.
(** The crypto of the entry is the instance's. *)
Lemma first_env (n : node bytes) l ls e i s o r : sg (ncr nA) (LMsg l :: ls) n 0 = [NState e i s o r] -> e_crypto e = e_crypto l /\
  exists n', nstep nlc ntenc (ncr nA) (LMsg l) n = Some (n', [NState e i s o r]).
Proof.
  simpl. destruct (if nd_on n then _ else _) as [[n' g]|] eqn:E; [|done]. intros ->. split; [|by exists n'].
  destruct (nd_on n); [|done]. destruct (nd_queue n); [done|]. unfold state_move in E. destruct (react _ _ _ _ _) as [[??]?].
  injection E as _ <- _ _ _ _. done.
Qed.
Lemma choked_generic (n : node bytes) log rest :
  ndrun nA log n -> let g := sg (ncr nA) (LMsg (nenv nA true) :: rest) n 0 in
  choked_now n g = true -> forallb (chokedb (log ++ g) 1 0) [nB; nC; nD] = true -> low_chokes (log ++ g) = true -> NoDup [nB; nC; nD] ->
  exists log n l1 e sc s o r,
    ndrun nA log n /\ log = (l1 ++ [NState e (IMsg (MChoke sc)) s o r]) ++ [] /\
    let now := l1 ++ [NState e (IMsg (MChoke sc)) s o r] in
    s_power s = true /\ ck_height (sc_choke sc) = s_height s /\ ck_round (sc_choke sc) = s_round s /\
    NoDup [nB; nC; nD] /\ (3 * length [nB; nC; nD] > 2 * auth_len (s_auth s))%nat /\
    (forall a, a ∈ [nB; nC; nD] -> choked_in_time now (s_height s) (s_round s) a) /\
    (forall sc, choke_seen now sc -> ck_round (sc_choke sc) + 1 < 2 ^ 64) /\
    (forall sigs who, is_Some (cr_aggregate (e_crypto e) sigs who)).
Proof.
  intros Hr g Hn Hc Hl Hd. unfold g in *. clear g. unfold ndrun in *.
  apply choked_from in Hn as (e & sc & s & o & r & E & H1 & H2 & H3 & H4 & H5 & H6 & _). rewrite E in Hc, Hl.
  apply first_env in E as (Ee & n' & Hst).
  exists (log ++ [NState e (IMsg (MChoke sc)) s o r]), n', log, e, sc, s, o, r.
  split; [by eapply noderun_step|]. split; [by rewrite app_nil_r|]. cbv zeta. rewrite forallb_forall in Hc.
  split; [done|]. split; [done|]. split; [done|]. split; [done|]. split; [rewrite H6; simpl; lia|].
  split; [|split; [by apply low_chokes_ok|rewrite Ee; intros; by eexists]].
  intros a Ha. rewrite H4, H5. by apply chokedb_ok, Hc, elem_of_list_In.
Qed.
Example choked_run :
  exists log n l1 e sc s o r,
    ndrun nA log n /\ log = (l1 ++ [NState e (IMsg (MChoke sc)) s o r]) ++ [] /\
    let now := l1 ++ [NState e (IMsg (MChoke sc)) s o r] in
    s_power s = true /\ ck_height (sc_choke sc) = s_height s /\ ck_round (sc_choke sc) = s_round s /\
    NoDup [nB; nC; nD] /\ (3 * length [nB; nC; nD] > 2 * auth_len (s_auth s))%nat /\
    (forall a, a ∈ [nB; nC; nD] -> choked_in_time now (s_height s) (s_round s) a) /\
    (forall sc, choke_seen now sc -> ck_round (sc_choke sc) + 1 < 2 ^ 64) /\
    (forall sigs who, is_Some (cr_aggregate (e_crypto e) sigs who)).
Proof. exact (choked_generic _ _ _ knode_runs choked_now_ok kchoked klow kdup). Qed.
Example choked_execution :
  let x := sx (ncr nA) choked_then knode in let lab := sl choked_then in let lg := sg (ncr nA) choked_then knode in
  execution nlc ntenc ntdec true (ncr nA) (nboot nA None) None x lab lg /\ fair x lab lg /\ boots ntdec true (nboot nA None) None /\
  exists e inp s o r, lg 0%nat = [NState e inp s o r] /\ ATrigger (mk_trigger TContinueRound [] None 1 (s_height s)) ∈ o /\ 1 < 2 ^ 64 /\
    s_power s = true /\ 0 < s_height s /\ m_height (nd_smr (x 0%nat)) = s_height s /\ m_round (nd_smr (x 0%nat)) < 1.
Proof.
  cbv zeta. pose proof knode_runs as Hr. pose proof until_choked_range as Hl. pose proof choked_sched as Hs. pose proof choked_now_ok as Hd.
  unfold ndrun in *. generalize dependent klog. generalize dependent knode. generalize choked_then. intros ls n Hs Hd log Hr Hl.
  destruct (sched_execution _ _ _ _ _ _ Hr Hl Hs) as [He Hf]. split; [exact He|]. split; [exact Hf|]. split; [reflexivity|].
  apply choked_from in Hd as (e & sc & s & o & r & E & H1 & H2 & H3 & H4 & H5 & H6 & H7 & H8 & H9).
  assert (sx (ncr nA) ls n 0 = n) as -> by by destruct ls.
  exists e, (IMsg (MChoke sc)), s, o, r. rewrite H4, H8, H9. split; [exact E|]. done.
Qed.
(** What the theorem promises is what happens: A enters round 1. *)
Example choked_entered :
  omap (fun g => match g with NState _ (IEvent (EvNewRound h r _ _ _ _ _)) s _ _ => Some (h, r, s_height s, s_round s) | _ => None end)
    (all_logs (ncr nA) choked_then knode) = [(1, 1, 1, 0)].
Proof. vm_compute. reflexivity. Qed.
