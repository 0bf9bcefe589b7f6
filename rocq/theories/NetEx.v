(** * NetEx: checking that concrete pasts of four nodes are a network in the sense of P_Agree. *)
From Verif Require Export P_Agree NodeEx.
Set Default Proof Using "Type".

(** ** Concrete epochs *)
(** The outside world of the examples: as [nenv], but [get_block] may be chosen. *)
Definition env_ok (e : env bytes) : Prop := forall h c, e_commit e h c = Some (nstatus (h + 1)).
Definition nenv_with (me : bytes) (g : N -> option (bytes * bytes)) : env bytes :=
  mkEnv (ncr me) g (fun h _ => Some (nstatus (h + 1))) (fun _ => true) (fun _ => true).
Definition relabel (me : bytes) (l : label bytes) : label bytes :=
  match l with
  | LRaw e => LRaw (nenv_with me (e_get_block e)) | LEvent e => LEvent (nenv_with me (e_get_block e))
  | LResp e => LResp (nenv_with me (e_get_block e)) | LMsg e => LMsg (nenv_with me (e_get_block e))
  | l => l
  end.
Definition xexec (me : bytes) (wal : option bytes) (ls : list (label bytes)) : option (node bytes * list (nlog bytes)) :=
  run_labels nlc ntenc (ncr me) (relabel me <$> ls) (nstart nlc ntdec true (nboot me wal) None).
Definition xlog me wal ls : list (nlog bytes) := match xexec me wal ls with Some (_, l) => l | None => [] end.
Definition xnode me wal ls : node bytes :=
  match xexec me wal ls with Some (n, _) => n | None => (nstart nlc ntdec true (nboot me wal) None).1 end.
Definition xok me wal ls : bool := match xexec me wal ls with Some _ => true | None => false end.
Lemma xok_run me wal ls : xok me wal ls = true ->
  noderun nlc ntenc ntdec true (ncr me) (nboot me wal) None (xlog me wal ls) (xnode me wal ls).
Proof.
  unfold xok, xlog, xnode. destruct (xexec me wal ls) as [[n l]|] eqn:E; [|done]. intros _. by eapply run_labels_run.
Qed.
Lemma xlog_env me wal ls e i : (e, i) ∈ inputs (xlog me wal ls) -> env_ok e.
Proof.
  unfold xlog, xexec.
  assert (forall (ls : list (label bytes)) x n log, run_labels nlc ntenc (ncr me) (relabel me <$> ls) x = Some (n, log) ->
    (forall e i, (e, i) ∈ inputs x.2 -> env_ok e) -> forall e i, (e, i) ∈ inputs log -> env_ok e) as H.
  { clear ls e i. intros ls. induction ls as [|l ls IH]; intros [n0 log0] n log Hr Hx e i Hin; simpl in *.
    - injection Hr as <- <-. by apply (Hx e i).
    - destruct (nstep _ _ _ _ _) as [[n1 log1]|] eqn:Es; [|done]. eapply (IH (n1, log0 ++ log1)); [exact Hr| |exact Hin].
      simpl. intros e1 i1. rewrite inputs_app, elem_of_app. intros [?|Hin1]; [by eapply Hx|]. clear -Es Hin1.
      assert (forall (n0 n1 : node bytes) g i, state_move nlc ntenc (nenv_with me g) i n0 = (n1, log1) -> env_ok e1) as Hm.
      { intros n2 n3 g j Hm. unfold state_move in Hm. destruct (react _ _ _ _ _) as [[s o] r]. injection Hm as <- <-.
        unfold inputs in Hin1. simpl in Hin1. apply elem_of_list_singleton in Hin1. injection Hin1 as -> _. by intros ? ?. }
      destruct l; simpl in Es; unfold smr_move in Es; repeat case_match; try discriminate Es; injection Es as Es;
        try (by eapply Hm); subst; unfold inputs in Hin1; simpl in Hin1; by apply elem_of_nil in Hin1. }
  destruct (run_labels _ _ _ _ _) as [[n log]|] eqn:E; [|intros Hin; by apply elem_of_nil in Hin].
  intros Hin. eapply H; [exact E| |exact Hin]. intros e1 i1 Hin1. unfold nstart in Hin1.
  destruct (on_start _ _ _ _ _ _) as [[s o] r]. by apply elem_of_nil in Hin1.
Qed.

(** What can happen to a node in the examples: starts, the log record they find being given. *)
Record start := mkStartEx { sx_wal : option (walinfo bytes); sx_ls : list (label bytes); sx_k : nat }.
Definition sx_bytes (x : start) : option bytes := (fun w => enc (walinfo_rlp ntenc w)) <$> sx_wal x.
Definition sx_log (me : bytes) (x : start) : list (nlog bytes) := xlog me (sx_bytes x) (sx_ls x).
Definition sx_epoch (me : bytes) (x : start) : epoch := mkEpoch (T:=bytes) (nboot me (sx_bytes x)) (sx_log me x) (sx_k x).
Fixpoint livedb (me : bytes) (w : option (walinfo bytes)) (xs : list start) : bool :=
  match xs with
  | [] => true
  | x :: xs =>
      let log := sx_log me x in
      bool_decide (sx_wal x = w) &&
      (match w with None => true | Some w => match dec_walinfo ntdec true (enc (walinfo_rlp ntenc w)) with Ok w' => bool_decide (w' = w) | _ => false end && (0 <? wi_height w) end) &&
      auth_contains (auth_update nvals) me &&
      xok me (sx_bytes x) (sx_ls x) && in_rangeb log &&
      (length (tagged (removelast log)) <=? sx_k x)%nat &&
      livedb me (after_saves w (take (sx_k x) (tagged log)).*2) xs
  end.
Lemma livedb_ok me xs w eps : livedb me w xs = true -> lived nlc ntenc ntdec true (ncr me) w eps ->
  exists w', lived nlc ntenc ntdec true (ncr me) w' (eps ++ (sx_epoch me <$> xs)).
Proof.
  revert w eps. induction xs as [|x xs IH]; intros w eps Hb Hl; [exists w; by rewrite app_nil_r|].
  simpl in Hb. rewrite !andb_true_iff, bool_decide_eq_true in Hb. destruct Hb as ((((((E & Hw) & Ha) & Hx) & Hr) & Hk) & Hb).
  eapply IH in Hb as [w' Hb].
  - exists w'. rewrite fmap_cons, cons_middle, app_assoc. exact Hb.
  - eapply (lived_more _ _ _ _ _ w eps _ None _ (xnode me (sx_bytes x) (sx_ls x))); try done.
    + unfold boots. destruct w as [w|]; unfold sx_bytes; rewrite E; [|reflexivity].
      apply andb_true_iff in Hw as [Hw H0]. destruct (dec_walinfo _ _ _) as [w'| |] eqn:Ed; [|done..]. apply bool_decide_eq_true in Hw. subst w'. apply N.ltb_lt in H0.
      split; [|split; [done|by left]]. eexists. split; [reflexivity|done].
    + by apply xok_run.
    + by apply in_rangeb_ok.
    + intros log0 y El. rewrite El, removelast_last in Hk. by apply Nat.leb_le.
    + apply stored_after.
Qed.

(** ** A network of such nodes *)
Definition recv_votes (log : list (nlog bytes)) : list svote :=
  omap (fun x => match x.2 with IMsg (MVote v) => Some v | _ => None end) (inputs log).
Definition recv_certs (log : list (nlog bytes)) : list aggvote :=
  concat ((fun x => match x.2 with
    | IMsg (MAgg q) => [q]
    | IMsg (MChoke sc) => match ck_from (sc_choke sc) with UFPrevote q | UFPrecommit q => [q] | UFChoke _ => [] end
    | _ => [] end) <$> inputs log).
Definition recv_lists (log : list (nlog bytes)) : list (list vnode) :=
  omap (fun x => match x.2 with IMsg (MStatus s) => Some (st_auth s) | _ => None end) (inputs log).
Section Ex.
Context (byz : bytes) (nodes : list (bytes * list start)).
Definition isbyz (a : bytes) : bool := bool_decide (a = byz).
Definition starts_of (a : bytes) : list start := concat (omap (fun x => if bool_decide (x.1 = a) then Some x.2 else None) nodes).
Definition ex_net (a : bytes) : list (epoch (T:=bytes)) := sx_epoch a <$> starts_of a.
Definition casts_of (a : bytes) : list vote := (votes_cast (ex_net a)).*2.
(* the casts of the nodes, computed once *)
Definition casts_table : list (bytes * list vote) := (fun a => (a, casts_of a)) <$> [nA; nB; nC; nD].
Definition did_cast (tab : list (bytes * list vote)) (a : bytes) (v : vote) : bool :=
  existsb (fun x => bool_decide (x.1 = a) && bool_decide (v ∈ x.2)) tab.
Definition genuineb tab (q : aggvote) : bool :=
  2 * total_weight nvals <? 3 * weight_where (fun a => isbyz a || did_cast tab a (to_vote q)) nvals.
Definition nodeb (f : bytes -> list (nlog bytes) -> bool) : bool :=
  forallb (fun a => isbyz a || forallb (fun x => f a (sx_log a x)) (starts_of a)) [nA; nB; nC; nD].
Definition networkb : bool :=
  bool_decide (byz ∈ [nA; nB; nC; nD]) &&
  forallb (fun a => isbyz a || livedb a None (starts_of a)) [nA; nB; nC; nD] &&
  nodeb (fun _ log => forallb (fun l => bool_decide (l = nvals)) (recv_lists log)) &&
  let tab := casts_table in
  nodeb (fun _ log => forallb (fun v => isbyz (sv_voter v) || did_cast tab (sv_voter v) (sv_vote v)) (recv_votes log)).
Definition certsb : bool := let tab := casts_table in nodeb (fun _ log => forallb (fun q => bool_decide (q = mock_init_qc) || genuineb tab q) (recv_certs log)).
Definition freshb : bool :=
  forallb (fun a => isbyz a || forallb (fun x => forallb fst (votes_in (done_of (sx_epoch a x)))) (starts_of a)) [nA; nB; nC; nD].
(* nothing is unlocked *)
Definition no_unlockb : bool := nodeb (fun _ log => forallb (fun x => match x with
  | NSmr t m _ _ => match t_type t, t_src t, m_lock m, t_lock_round t with
                    | TProposal, SrcState, Some l, Some lr => negb (l_round l <? lr) | _, _, _, _ => true end
  | _ => true end) log).

Lemma nodeb_ok f a x : nodeb f = true -> honest nvals isbyz a -> x ∈ ex_net a -> f a (ep_log x) = true.
Proof.
  intros Hf [Ha Hb] Hx. unfold nodeb in Hf. rewrite forallb_forall in Hf. apply elem_of_list_In in Ha. apply Hf in Ha.
  rewrite Hb in Ha. simpl in Ha. apply elem_of_list_fmap in Hx as (y & -> & Hy). rewrite forallb_forall in Ha.
  apply elem_of_list_In, Ha in Hy. done.
Qed.
Lemma did_cast_ok a v : did_cast casts_table a v = true -> cast ex_net a v.
Proof.
  unfold did_cast. rewrite existsb_exists. intros (y & Hy & E). apply andb_true_iff in E as [E1 E2].
  apply bool_decide_eq_true in E1, E2. apply elem_of_list_In in Hy. unfold casts_table in Hy.
  apply elem_of_list_fmap in Hy as (b & -> & _). simpl in *. subst b. by apply cast_elem.
Qed.
Lemma genuineb_ok q : genuineb casts_table q = true -> genuine nvals isbyz ex_net q.
Proof.
  unfold genuineb. intros Hq%N.ltb_lt. eexists. split; [exact Hq|]. intros n Hn Hp Hb. simpl in Hp. rewrite Hb in Hp.
  by apply did_cast_ok.
Qed.
Lemma recv_votes_ok log v : received (inputs log) (IMsg (MVote v)) -> v ∈ recv_votes log.
Proof. intros [e He]. unfold recv_votes. apply elem_of_list_omap. by exists (e, IMsg (MVote v)). Qed.
Lemma recv_certs_ok log i q : received (inputs log) i -> qc_in i q -> q ∈ recv_certs log.
Proof.
  intros [e He] Hq. unfold recv_certs. apply elem_of_list_In, in_concat. eexists.
  split; [apply in_map, elem_of_list_In, He|]. destruct Hq as [->|(sc & -> & [E|E])]; simpl; [by left|rewrite E; by left..].
Qed.
Lemma networkb_ok : networkb = true -> network nlc ntenc ntdec true nvals isbyz ncr ex_net.
Proof.
  unfold networkb. rewrite !andb_true_iff, bool_decide_eq_true. intros (((Hbz & Hl) & Hs) & Hv). split.
  - assert (forall b, b ∈ [nA; nB; nC; nD] -> 3 * weight_where (fun a => bool_decide (a = b)) nvals < total_weight nvals) as H.
    { apply Forall_forall. repeat constructor. }
    by apply (H byz).
  - unfold distinct. apply (bool_decide_eq_true _). vm_compute. reflexivity.
  - reflexivity.
  - intros a [Ha Hb]. rewrite forallb_forall in Hl. apply elem_of_list_In, Hl in Ha. rewrite Hb in Ha. simpl in Ha.
    apply (livedb_ok _ _ _ [] Ha). constructor.
  - intros a x _ Hx. by apply elem_of_list_fmap in Hx as (y & -> & _).
  - intros a x l' Ha Hx Hsup. pose proof (nodeb_ok _ a x Hs Ha Hx) as Hr. simpl in Hr. rewrite forallb_forall in Hr.
    destruct Hsup as [->|[(stt & [e He] & <-)|(e & h & c & stt & He & _ & Hc & <-)]].
    + by apply elem_of_list_fmap in Hx as (y & -> & _).
    + enough (st_auth stt ∈ recv_lists (ep_log x)) as Hin by (apply elem_of_list_In, Hr in Hin; by apply bool_decide_eq_true in Hin).
      unfold recv_lists. apply elem_of_list_omap. by exists (e, IMsg (MStatus stt)).
    + apply elem_of_list_fmap in Hx as (y & -> & _). simpl in *.
      assert (env_ok e) as Hok. { destruct He as [->|[i Hi]]; [by intros ? ?|]. by eapply xlog_env. }
      rewrite Hok in Hc. by injection Hc as <-.
  - intros a x v Ha Hx Hrec [_ Hb]. pose proof (nodeb_ok _ a x Hv Ha Hx) as Hr. simpl in Hr. rewrite forallb_forall in Hr.
    apply recv_votes_ok, elem_of_list_In, Hr in Hrec. rewrite Hb in Hrec. by apply did_cast_ok.
Qed.
Lemma certsb_ok : certsb = true -> certs_genuine nvals isbyz ex_net.
Proof.
  unfold certsb. intros Hc a x i q Ha Hx Hi Hq. pose proof (nodeb_ok _ a x Hc Ha Hx) as Hr. simpl in Hr. rewrite forallb_forall in Hr.
  eapply recv_certs_ok, elem_of_list_In, Hr in Hq; [|done]. apply orb_true_iff in Hq as [Hq|Hq].
  - left. by apply bool_decide_eq_true in Hq.
  - right. by apply genuineb_ok.
Qed.
Lemma freshb_ok : freshb = true -> votes_fresh nvals isbyz ex_net.
Proof.
  unfold freshb. intros Hf a x [Ha Hb] Hx. rewrite forallb_forall in Hf. apply elem_of_list_In, Hf in Ha. rewrite Hb in Ha. simpl in Ha.
  apply elem_of_list_fmap in Hx as (y & -> & Hy). rewrite forallb_forall in Ha. apply elem_of_list_In, Ha in Hy.
  unfold all_fresh. apply Forall_forall. rewrite forallb_forall in Hy. intros z Hz. by apply elem_of_list_In, Hy in Hz.
Qed.
Lemma no_unlockb_ok : no_unlockb = true -> unlocks_justified nvals isbyz ex_net.
Proof.
  unfold no_unlockb. intros Hu a x Ha Hx t m o r Hin. pose proof (nodeb_ok _ a x Hu Ha Hx) as Hr. simpl in Hr. rewrite forallb_forall in Hr.
  apply elem_of_list_In, Hr in Hin. intros E1 E2 _ _ l lr E3 E4 Hlt. rewrite E1, E2, E3, E4 in Hin. apply N.ltb_lt in Hlt. by rewrite Hlt in Hin.
Qed.
Definition commits_of (a : bytes) : list (N * commit bytes) :=
  concat ((fun x => omap (fun y => match y.2 with ACommit h c => Some (h, c) | _ => None end) (done_of (sx_epoch a x))) <$> starts_of a).
Lemma commits_of_ok a h c : (h, c) ∈ commits_of a -> has_committed (ex_net a) h c.
Proof.
  unfold commits_of. intros Hin%elem_of_list_In%in_concat. destruct Hin as (o & Ho%elem_of_list_In & Hin%elem_of_list_In).
  apply elem_of_list_fmap in Ho as (x & -> & Hx). apply elem_of_list_omap in Hin as ([f ac] & Hac & E). simpl in E.
  destruct ac; try discriminate E. injection E as -> ->. exists (sx_epoch a x). split; [by apply elem_of_list_fmap_1|].
  apply elem_of_list_fmap. by exists (f, ACommit h c).
Qed.
End Ex.
