(** * P_QuorumEx: a run that meets the hypotheses of P_Quorum (C54). *)
From Verif Require Export P_Quorum P_DecideEx.
Set Default Proof Using "Type".

(** B leads height 1: it proposes and prevotes its block, the block is checked, A's prevote is
    counted, and C's prevote waits for the state module. *)
Definition gathering : list (label bytes) :=
  let e := nenv nB true in
  status_through nB (nstatus 1) ++ [LSmr; LEvent e; LArm; LSmr; LArm; LEvent e; LCheck 0 true; LResp e] ++
  through nB (MVote (nvote nA 1 0 Prevote hsh)) ++ [LSend (MVote (nvote nC 1 0 Prevote hsh)); LRaw e; LVerify 0].
Lemma gathering_ok : ndok nB gathering = true.
Proof. vm_compute. reflexivity. Qed.
Definition gnode : node bytes := ndnode nB gathering.
Definition glog : list (nlog bytes) := ndlog nB gathering.
Lemma gathering_runs : ndrun nB glog gnode.
Proof. exact (ndok_run _ _ gathering_ok). Qed.

(** Booleans for the hypotheses. *)
Definition all_saved (log : list (nlog bytes)) : bool :=
  forallb (fun a => match a with ASave _ ok => ok | _ => true end) (actions log).
Lemma all_saved_ok log : all_saved log = true -> forall w, ASave w false ∉ actions log.
Proof. unfold all_saved. rewrite forallb_forall. intros H w Hin. apply elem_of_list_In, H in Hin. done. Qed.
Definition in_forceb (l : list vnode) (h : N) (log : list (nlog bytes)) : bool :=
  forallb (fun g => match g with
                    | NState _ _ s _ _ => negb (s_height s =? h) || bool_decide (s_auth s = auth_update l)
                    | _ => true end) log.
Lemma in_forceb_ok l h log : in_forceb l h log = true -> in_force_at l h log.
Proof.
  unfold in_forceb. rewrite forallb_forall. intros H e i s o r Hin Hs. apply elem_of_list_In, H in Hin.
  rewrite Hs, N.eqb_refl in Hin. by apply bool_decide_eq_true in Hin.
Qed.
Definition timelyb (v : svote) (s : st bytes) : bool :=
  (v_height (sv_vote v) =? s_height s) && (s_round s <=? v_round (sv_vote v)) && (v_round (sv_vote v) <=? s_round s + FUTURE_ROUND_GAP).
Definition castb (log : list (nlog bytes)) (a : bytes) (vt : vote) : bool :=
  existsb (fun g => match g with
                    | NState _ (IMsg (MVote v)) s _ _ => bool_decide (sv_voter v = a) && bool_decide (sv_vote v = vt) && timelyb v s
                    | _ => false end) log ||
  existsb (fun g => match g with AOwnVote v => bool_decide (sv_voter v = a) && bool_decide (sv_vote v = vt) | _ => false end) (actions log).
Lemma castb_ok log a vt : castb log a vt = true -> cast_in_time log a vt.
Proof.
  intros [(g & Hg & Hb)%existsb_exists|(g & Hg & Hb)%existsb_exists]%orb_true_iff; apply elem_of_list_In in Hg.
  - destruct g as [| |e i s o r| | | | | |]; try done. destruct i; try done. destruct m as [|v| | | |]; try done.
    unfold timelyb in Hb. rewrite !andb_true_iff, !bool_decide_eq_true, N.eqb_eq, !N.leb_le in Hb. destruct Hb as ((H1 & H2) & (H3 & H4) & H5).
    exists v. split; [done|]. split; [done|]. left. exists e, s, o, r. split; [done|]. by split.
  - destruct g; try done. rewrite andb_true_iff, !bool_decide_eq_true in Hb. destruct Hb as (H1 & H2). eexists. split; [exact H1|]. split; [exact H2|]. by right.
Qed.
Definition all_forb (log : list (nlog bytes)) (x : bytes) : bool :=
  forallb (fun g => match g with NState _ (IMsg (MVote v)) _ _ _ => bool_decide (v_hash (sv_vote v) = x) | _ => true end) log &&
  forallb (fun g => match g with AOwnVote v => bool_decide (v_hash (sv_vote v) = x) | _ => true end) (actions log).
Lemma all_forb_ok log x : all_forb log x = true -> forall v, seen log v -> v_hash (sv_vote v) = x.
Proof.
  intros [H1 H2]%andb_true_iff v [(e & s & o & r & Hin)|Hin]; rewrite forallb_forall in H1, H2; apply elem_of_list_In in Hin.
  - apply H1 in Hin. by apply bool_decide_eq_true in Hin.
  - apply H2 in Hin. by apply bool_decide_eq_true in Hin.
Qed.

(** What is treated next. *)
Definition gentry : list (nlog bytes) :=
  match nstep nlc ntenc (ncr nB) (LMsg (nenv nB true)) gnode with Some (_, g) => g | None => [] end.
Definition gafter : node bytes :=
  match nstep nlc ntenc (ncr nB) (LMsg (nenv nB true)) gnode with Some (n, _) => n | None => gnode end.
Definition gnow (n : node bytes) : bool :=
  nd_on n && match nd_queue n with MVote v :: _ => bool_decide (v = nvote nC 1 0 Prevote hsh) | _ => false end &&
  s_power (nd_st n) && (s_height (nd_st n) =? 1) && (s_round (nd_st n) =? 0) && bool_decide (s_full (nd_st n) !! hsh = Some true).
Lemma gnow_spec n : gnow n = true -> nd_on n = true /\ (exists q, nd_queue n = MVote (nvote nC 1 0 Prevote hsh) :: q) /\
  s_power (nd_st n) = true /\ s_height (nd_st n) = 1 /\ s_round (nd_st n) = 0 /\ s_full (nd_st n) !! hsh = Some true.
Proof.
  unfold gnow. rewrite !andb_true_iff, !N.eqb_eq. intros (((((H1 & H2) & H3) & H4) & H5) & H6). apply bool_decide_eq_true in H6.
  split; [exact H1|]. split; [|split; [exact H3|split; [exact H4|split; [exact H5|exact H6]]]].
  destruct (nd_queue n) as [|m q]; [done|]. destruct m as [|v| | | |]; try done. apply bool_decide_eq_true in H2 as ->. by exists q.
Qed.
Lemma gnow_ok : gnow gnode = true. Proof. vm_compute. reflexivity. Qed.
Lemma gsaved : all_saved (glog ++ gentry) = true. Proof. vm_compute. reflexivity. Qed.
Lemma gforce : in_forceb nvals 1 (glog ++ gentry) = true. Proof. vm_compute. reflexivity. Qed.
Lemma gcast : forallb (fun a => castb (glog ++ gentry) a (mkVote 1 0 Prevote hsh)) [nA; nB; nC] = true. Proof. vm_compute. reflexivity. Qed.
Lemma gfor : all_forb (glog ++ gentry) hsh = true. Proof. vm_compute. reflexivity. Qed.
Lemma gentry_shape : nd_on gnode = true -> (exists q, nd_queue gnode = MVote (nvote nC 1 0 Prevote hsh) :: q) ->
  exists o r, gentry = [NState (env_at gnode (nenv nB true)) (IMsg (MVote (nvote nC 1 0 Prevote hsh))) (nd_st gnode) o r] /\
    nstep nlc ntenc (ncr nB) (LMsg (nenv nB true)) gnode = Some (gafter, gentry).
Proof.
  unfold gentry, gafter. generalize gnode. generalize (nvote nC 1 0 Prevote hsh). generalize (nenv nB true). intros e v n Ho (q & Hq).
  simpl nstep. rewrite Ho, Hq. unfold state_move. destruct (react _ _ _ _ _) as [[s' o] r]. eauto.
Qed.
Lemma nvals_distinct : distinct nvals.
Proof. unfold distinct. apply (bool_decide_unpack _). vm_compute. exact I. Qed.
Example quorum_run :
  exists log n l1 e v s o r,
    ndrun nB log n /\ log = (l1 ++ [NState e (IMsg (MVote v)) s o r]) ++ [] /\
    let now := l1 ++ [NState e (IMsg (MVote v)) s o r] in
    (forall w, ASave w false ∉ actions now) /\
    in_force_at nvals (s_height s) now /\ distinct nvals /\ total_weight nvals < 2 ^ 32 /\ nB ∈ n_addr <$> nvals /\
    s_power s = true /\ far_from_end s /\ v_type (sv_vote v) = Prevote /\
    v_height (sv_vote v) = s_height s /\ v_round (sv_vote v) = s_round s /\ sv_voter v ∈ n_addr <$> nvals /\
    3 * weight_of [nA; nB; nC] nvals > 2 * total_weight nvals /\
    (forall a, a ∈ [nA; nB; nC] -> a ∈ n_addr <$> nvals /\ cast_in_time now a (mkVote (s_height s) (s_round s) Prevote hsh) /\
       forall v, seen now v -> sv_voter v = a -> v_height (sv_vote v) = s_height s -> v_round (sv_vote v) = s_round s ->
         v_type (sv_vote v) = Prevote -> v_hash (sv_vote v) = hsh) /\
    (forall sigs who, is_Some (cr_aggregate (e_crypto e) sigs who)) /\ s_full s !! hsh = Some true.
Proof.
  pose proof gathering_runs as Hr. pose proof gsaved as Hs. pose proof gforce as Hf. pose proof gcast as Hc. pose proof gfor as Hx.
  pose proof (gnow_spec _ gnow_ok) as (H1 & H2 & H3 & H4 & H5 & H6). destruct (gentry_shape H1 H2) as (o & r & E & Hst).
  clear H1 H2. revert Hr Hs Hf Hc Hx H3 H4 H5 H6 E Hst. generalize gentry, glog, gafter, gnode. intros g log n' n Hr Hs Hf Hc Hx H3 H4 H5 H6 E Hst.
  exists (log ++ g), n', log, (env_at n (nenv nB true)), (nvote nC 1 0 Prevote hsh), (nd_st n), o, r.
  split; [unfold ndrun in *; eapply noderun_step; [exact Hr|exact Hst]|]. subst g. split; [by rewrite app_nil_r|]. cbv zeta. rewrite H4, H5.
  split; [by apply all_saved_ok|]. split; [by apply in_forceb_ok|]. split; [exact nvals_distinct|]. split; [done|].
  split; [right; left|]. split; [done|]. split; [unfold far_from_end; rewrite H4, H5; done|].
  split; [done|]. split; [done|]. split; [done|]. split; [right; right; left|]. split; [done|].
  rewrite forallb_forall in Hc.
  split; [|split; [intros sigs who; by eexists|done]].
  intros a Ha. split; [|split].
  - apply elem_of_cons in Ha as [->|Ha]; [left|]. apply elem_of_cons in Ha as [->|Ha]; [right; left|]. apply elem_of_list_singleton in Ha as ->. right; right; left.
  - apply castb_ok, Hc. by apply elem_of_list_In.
  - intros v Hv _ _ _ _. eapply all_forb_ok; [exact Hx|exact Hv].
Qed.
(** What the theorem promises is what happens: one certificate is broadcast, for B's block. *)
Example quorum_certified :
  omap (fun a => match a with ABroadcast (MAgg q) => Some (to_vote q) | _ => None end) (actions gentry) = [mkVote 1 0 Prevote hsh] /\
  omap (fun a => match a with ATrigger t => Some (t_type t, t_hash t) | _ => None end) (actions gentry) = [(TPrevoteQC, hsh)].
Proof. split; vm_compute; reflexivity. Qed.
