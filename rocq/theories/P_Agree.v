(** * P_Agree: the validators of a network agree (C28). *)
From Verif Require Export Agree.
Set Default Proof Using "Type".

(** ** Specification *)
Section Spec.
Context {T : Type} `{EqDecision T}.
Context (lc : lcfg) (tenc : T -> bytes) (tdec : bytes -> option T) (spill : bool).

(** One start of a node and what it did until it crashed: the first [ep_k] actions of its log. *)
Record epoch := mkEpoch { ep_boot : boot T; ep_log : list (nlog T); ep_k : nat }.
Definition done_of (x : epoch) : list (bool * action T) := take (ep_k x) (tagged (ep_log x)).
(** A validator's past: any number of starts; each restart reads the record that is stored. A
    crash can happen between any two actions; what is logged last is what the crash cuts short. *)
Inductive lived (cr : crypto) : option (walinfo T) -> list epoch -> Prop :=
| lived_new : lived cr None []
| lived_more w eps b cfg log n k w' :
    lived cr w eps -> boots tdec spill b w -> noderun lc tenc tdec spill cr b cfg log n -> smr_in_range log ->
    (forall log0 x, log = log0 ++ [x] -> (length (tagged log0) <= k)%nat) ->
    stored w (take k (tagged log)).*2 w' ->
    lived cr w' (eps ++ [mkEpoch b log k]).
(** All votes cast in a past, in order, and the blocks handed to the application. *)
Definition votes_cast (eps : list epoch) : list (bool * vote) := concat (votes_in ∘ done_of <$> eps).
Definition has_committed (eps : list epoch) (h : N) (c : commit T) : Prop :=
  exists x, x ∈ eps /\ ACommit h c ∈ (done_of x).*2.

(** A network: the validators [l], with [byz] marking those that may do anything, and the pasts
    [net] of the others. *)
Section Net.
Context (l : list vnode) (byz : bytes -> bool) (cr : bytes -> crypto) (net : bytes -> list epoch).
Definition honest (a : bytes) : Prop := a ∈ n_addr <$> l /\ byz a = false.
Definition cast (a : bytes) (v : vote) : Prop := exists f, (f, v) ∈ votes_cast (net a).
(** A certificate is genuine if validators with more than two thirds of the weight stand behind
    it, the honest ones among them having cast the vote it certifies. *)
Definition genuine (q : aggvote) : Prop := quorum_cast l byz cast (to_vote q).
(** The certificate of height 0 that a node's first chokes carry is signed by nobody. *)
Definition acceptable (q : aggvote) : Prop := q = mock_init_qc \/ genuine q.

Record network : Prop := mkNetwork {
  (* less than a third of the weight is Byzantine *)
  nw_few : 3 * weight_where byz l < total_weight l;
  nw_distinct : distinct l;
  nw_total : total_weight l < 2 ^ 32;
  (* the others run this code, under their own addresses, from the same validator list *)
  nw_lives : forall a, honest a -> exists w, lived (cr a) w (net a);
  nw_name : forall a x, honest a -> x ∈ net a -> b_addr (ep_boot x) = a;
  nw_vals : forall a x l', honest a -> x ∈ net a ->
    supplied (boot_at (ep_boot x)) (inputs (ep_log x)) (actions (ep_log x)) l' -> l' = l;
  (* signatures are not forged: a vote of an honest validator that is processed was cast *)
  nw_votes : forall a x v, honest a -> x ∈ net a -> received (inputs (ep_log x)) (IMsg (MVote v)) ->
    honest (sv_voter v) -> cast (sv_voter v) (sv_vote v) }.

(** Three things the code does not ensure. *)
(** Certificates that are processed, or carried by chokes that are, are genuine (but see C16-C18). *)
Definition certs_genuine : Prop :=
  forall a x i q, honest a -> x ∈ net a -> received (inputs (ep_log x)) i -> qc_in i q -> acceptable q.
(** No vote event is treated after the node moved to another height (but see C35). *)
Definition votes_fresh : Prop := forall a x, honest a -> x ∈ net a -> all_fresh (done_of x).
(** A proposal that takes a node's lock away has a proof of lock for another block than the
    locked one, of a round between the lock's and the proposal's. *)
Definition unlocks_justified : Prop := forall a x, honest a -> x ∈ net a -> unlocks_ok acceptable (ep_log x).
End Net.
End Spec.

Section P.
Context {T : Type} `{EqDecision T}.
Context (lc : lcfg) (tenc : T -> bytes) (tdec : bytes -> option T) (spill : bool).
Local Notation lived := (lived lc tenc tdec spill).
Local Notation network := (network lc tenc tdec spill).

Lemma votes_cast_snoc eps (x : epoch) : votes_cast (T:=T) (eps ++ [x]) = votes_cast eps ++ votes_in (done_of x).
Proof. unfold votes_cast. rewrite fmap_app, concat_app. simpl. by rewrite app_nil_r. Qed.
Lemma lived_life cr w eps : lived cr w eps -> life lc tenc tdec spill cr w (votes_cast eps).
Proof.
  induction 1 as [|w eps b cfg log n k w' Hl IH Hb Hr Hrg Hk Hs]; [constructor|].
  rewrite votes_cast_snoc. econstructor; try done. by rewrite <-fmap_take.
Qed.
Lemma noderun_snoc cr b cfg log n : noderun lc tenc tdec spill cr b cfg log n -> exists log0 x, log = log0 ++ [x].
Proof.
  destruct 1 as [n log Hs|log n l n' log' Hr Hs].
  - unfold nstart in Hs. destruct (on_start _ _ _ _ _ _) as [[s o] r]. injection Hs as <- <-. by exists [], (NStart o r).
  - apply nstep_inv in Hs. assert (exists x, log' = [x]) as [x ->] by (destruct Hs; subst; eauto). eauto.
Qed.

(** The certificate of a record was known before the step that wrote it. *)
Lemma saved_known cr b cfg log n w ok k :
  noderun lc tenc tdec spill cr b cfg log n -> ASave w ok ∈ actions log -> wi_lock w = Some k ->
  exists log0 x log1, log = (log0 ++ [x]) ++ log1 /\
    qc_known tdec spill (boot_at b) (inputs log0) (actions log0) (wl_votes k).
Proof.
  intros Hr Hw Hk. induction Hr as [n log Hs|log n l n' log' Hr IH Hs].
  - exists []. assert (noderun lc tenc tdec spill cr b cfg log n) as Hr by by constructor.
    unfold nstart in Hs. destruct (on_start _ _ _ _ _ _) as [[s o] r] eqn:E. injection Hs as <- <-.
    exists (NStart o r), []. split; [done|]. apply noderun_run in Hr.
    destruct (C49_records_are_consistent _ _ _ _ _ _ _ _ _ _ _ _ _ _ Hr Hw Hk) as (_ & _ & Hq & _).
    simpl in *. destruct Hq as [(i & (e & Hi) & _)|[Hq|Hq]].
    + by apply elem_of_nil in Hi.
    + exfalso. eapply (C39_none_at_start lc tenc tdec spill (boot_at b)); [exact Hr|exact Hq].
    + right. by right.
  - rewrite actions_app in Hw. apply elem_of_app in Hw as [Hw|Hw].
    + destruct (IH Hw) as (log0 & x & log1 & -> & ?). exists log0, x, (log1 ++ log'). by rewrite app_assoc.
    + apply nstep_inv in Hs.
      destruct Hs as [| e i n0 s o r Hon Hp He _ -> | | | | | |]; subst; try (by apply elem_of_nil in Hw).
      exists log, (NState (env_at n e) i (nd_st n) o r), []. rewrite app_nil_r. split; [done|].
      unfold actions in Hw. simpl in Hw. rewrite app_nil_r in Hw.
      apply noderun_run in Hr. apply run_run_inv in Hr as [(ops & Ev & Fv) _ _ _ _ _].
      assert (rec_in (nd_st n) w) as Hrec by (eapply rec_react; eauto).
      destruct (Hrec _ Hk) as (_ & _ & Hq). rewrite Ev in Hq.
      assert (VQC (wl_votes k) ∈ ops) as Hin.
      { destruct Hq as [[_ Hq]|(_ & _ & Hq)]; [apply lookup_id in Hq|apply lookup_hash in Hq]; tauto. }
      rewrite Forall_forall in Fv. by apply Fv in Hin.
Qed.
Lemma lflow_saves Q vs cur (l : list (bool * action T)) w ok :
  lflow Q vs cur l -> all_fresh l -> ASave w ok ∈ l.*2 -> exists vs', wsafe Q vs' w.
Proof.
  revert vs cur. induction l as [|[b a] l IH]; intros vs cur Hl Hf Hin; [by apply elem_of_nil in Hin|].
  cbn [fmap list_fmap snd] in Hin. unfold all_fresh, votes_in in Hf. simpl in Hf, Hl.
  destruct (vote_of a) as [v|] eqn:Ev; simpl in *.
  - assert (forall X (Y : Prop), match a with ASave w ok => X w ok | _ => Y end = Y) as Ea by (intros; by destruct a).
    rewrite Ea in Hl. apply Forall_cons in Hf as [Hb Hf]. simpl in Hb. subst b. destruct Hl as [_ Hl].
    apply elem_of_cons in Hin as [<-|Hin]; [done|]. by eapply IH.
  - apply elem_of_cons in Hin as [<-|Hin].
    + destruct Hl as [Hl _]. by exists vs.
    + destruct a; try (by eapply IH). destruct Hl as [_ Hl]. by eapply IH.
Qed.

Section Net.
Context (l : list vnode) (byz : bytes -> bool) (cr : bytes -> crypto) (net : bytes -> list (epoch (T:=T))).
Context (N : network l byz cr net) (HC : certs_genuine l byz net) (HF : votes_fresh l byz net).
Context (HU : unlocks_justified l byz net).
Local Notation honest := (honest l byz).
Local Notation cast := (cast net).
Local Notation genuine := (genuine l byz net).
Local Notation acceptable := (acceptable l byz net).

Lemma honest_in n : n ∈ l -> byz (n_addr n) = false -> honest (n_addr n).
Proof. clear N HC HF HU. intros Hn Hb. split; [by apply elem_of_list_fmap_1|done]. Qed.
Lemma votes_cast_in (x : epoch (T:=T)) eps f v : x ∈ eps -> (f, v) ∈ votes_in (done_of x) -> (f, v) ∈ votes_cast eps.
Proof.
  clear N HC HF HU. intros Hx Hv. unfold votes_cast. apply elem_of_list_In, in_concat. exists (votes_in (done_of x)). split; [|by apply elem_of_list_In].
  apply elem_of_list_In. exact (elem_of_list_fmap_1 (votes_in ∘ done_of) eps x Hx).
Qed.
Lemma in_votes_cast (eps : list (epoch (T:=T))) f v : (f, v) ∈ votes_cast eps -> exists x, x ∈ eps /\ (f, v) ∈ votes_in (done_of x).
Proof.
  clear N HC HF HU. unfold votes_cast. intros Hv%elem_of_list_In%in_concat. destruct Hv as (vs & Hvs%elem_of_list_In & Hv%elem_of_list_In).
  apply elem_of_list_fmap in Hvs as (x & -> & Hx). eauto.
Qed.
Lemma cast_once a v v' : honest a -> cast a v -> cast a v' ->
  v_height v = v_height v' -> v_round v = v_round v' -> v_type v = v_type v' -> v = v'.
Proof using N HC HF HU.
  intros Ha [f Hv] [f' Hv']. destruct (nw_lives _ _ _ _ _ _ _ _ N a Ha) as [w Hl]. apply lived_life in Hl.
  eapply C35_no_contradiction_partial; [exact Hl| |exact Hv|exact Hv'].
  intros g u Hu. apply in_votes_cast in Hu as (x & Hx & Hu). pose proof (HF a x Ha Hx) as Hf.
  unfold all_fresh in Hf. rewrite Forall_forall in Hf. by apply Hf in Hu.
Qed.
Lemma cert_prevotes h r x : cert acceptable h r x <-> prevotes l byz cast h r x.
Proof.
  clear N HC HF HU. unfold cert, acceptable, genuine, prevotes. split.
  - intros (q & [->|Hq] & E1 & <- & <- & <-); [done|]. unfold to_vote in Hq. by rewrite E1 in Hq.
  - intros Hq. exists (mkAggVote (mkAggSig [] []) Prevote h r x []). split; [by right|done].
Qed.
Lemma cert_same h r x y : cert acceptable h r x -> cert acceptable h r y -> x = y.
Proof using N HC HF HU.
  rewrite !cert_prevotes. intros Hx Hy.
  pose proof (same_cert l byz cast (nw_few _ _ _ _ _ _ _ _ N)) as Hs.
  enough (mkVote h r Prevote x = mkVote h r Prevote y) as E by by injection E.
  apply Hs; try done. intros n v v' Hn Hb. apply cast_once. by apply honest_in.
Qed.
(** What a node knew before its last step is acceptable, if what it started from was. *)
Lemma known_genuine a x log0 log1 :
  honest a -> x ∈ net a -> ep_log x = log0 ++ log1 -> (length (tagged log0) <= ep_k x)%nat ->
  (exists cfg n, noderun lc tenc tdec spill (cr a) (ep_boot x) cfg (ep_log x) n) ->
  (forall w k, boot_wal tdec spill (ep_boot x) w -> wi_lock w = Some k -> acceptable (wl_votes k)) ->
  (exists cfg n, noderun lc tenc tdec spill (cr a) (ep_boot x) cfg log0 n) \/ log0 = [] ->
  known_ok tdec spill acceptable (ep_boot x) log0.
Proof using N HC HF HU.
  intros Ha Hx El Hk _ Hw Hr q [(i & Hi & Hq)|[Hq|(w & k & Hbw & Hwk & <-)]].
  - eapply (HC a x i q); try done. rewrite El, inputs_app. by apply received_app.
  - destruct Hr as [(cfg & n & Hr)| ->]; [|by apply elem_of_nil in Hq]. apply noderun_run in Hr.
    destruct (run_built _ _ _ _ _ _ _ _ _ _ Hr Hq) as (l' & vs & Hs & Hvs & Hwt).
    assert (l' = l) as ->.
    { eapply (nw_vals _ _ _ _ _ _ _ _ N a x); try done. rewrite El, inputs_app, actions_app. by apply supplied_app. }
    specialize (Hwt (nw_distinct _ _ _ _ _ _ _ _ N) (nw_total _ _ _ _ _ _ _ _ N)).
    right. exists (fun a => bool_decide (a ∈ sv_voter <$> vs)). split; [unfold weight_of in Hwt; lia|].
    intros m Hm Hp Hb. apply bool_decide_eq_true in Hp. apply elem_of_list_fmap in Hp as (v & Ev & Hv).
    destruct (Hvs v Hv) as (Hkn & <- & _). rewrite Ev. rewrite Ev in Hb.
    assert (honest (sv_voter v)) as Hho. { rewrite <-Ev in *. by apply honest_in. }
    destruct Hkn as [Hrec|Hown].
    + eapply (nw_votes _ _ _ _ _ _ _ _ N a x); try done. rewrite El, inputs_app. by apply received_app.
    + pose proof (run_own _ _ _ _ _ _ _ _ _ _ Hr Hown) as E. simpl in E.
      rewrite (nw_name _ _ _ _ _ _ _ _ N a x Ha Hx) in E. rewrite E. 
      rewrite <-tagged_actions in Hown. apply elem_of_list_fmap in Hown as ([f ac] & Ea & Hown). simpl in Ea. subst ac.
      exists f. apply (votes_cast_in x); [done|]. unfold votes_in. apply elem_of_list_omap. exists (f, AOwnVote v). split; [|done].
      unfold done_of. rewrite El, tagged_app. rewrite take_app_ge by done. apply elem_of_app. by left.
  - by apply (Hw w k).
Qed.

(** The whole past of an honest node: its votes follow the rules, and so do its records. *)
Lemma lived_safe a w eps :
  honest a -> (forall x, x ∈ eps -> x ∈ net a) -> lived (cr a) w eps ->
  osafe acceptable (votes_cast eps).*2 w /\ (forall x k, w = Some x -> wi_lock x = Some k -> acceptable (wl_votes k)) /\
  (forall h c, has_committed eps h c -> exists q, acceptable q /\ av_type q = Precommit /\ av_height q = h /\
     av_hash q = pf_hash (c_proof c) /\ av_hash q <> []).
Proof using N HC HF HU.
  intros Ha Hin Hl. induction Hl as [|w eps b cfg log n k w' Hl IH Hb Hr Hrg Hk Hs].
  { split_and!; [done|by intros|]. intros h c (x & Hx & _). by apply elem_of_nil in Hx. }
  destruct IH as (Hos & HQ & HCm); [intros x Hx; apply Hin; apply elem_of_app; by left|].
  set (x := mkEpoch b log k) in *. assert (x ∈ net a) as Hx by (apply Hin; apply elem_of_app; right; by apply elem_of_list_singleton).
  assert (forall w0 k0, boot_wal tdec spill b w0 -> wi_lock w0 = Some k0 -> acceptable (wl_votes k0)) as Hbw.
  { intros w0 k0 (bs & E1 & E2) E3. destruct w as [w|]; simpl in Hb; [|by rewrite Hb in E1].
    destruct Hb as [(bs' & E1' & E2') _]. rewrite E1' in E1. injection E1 as <-. rewrite E2' in E2. injection E2 as <-. by apply (HQ w). }
  (* what was known before the last step *)
  assert (forall log0 y log1, log = (log0 ++ [y]) ++ log1 -> known_ok tdec spill acceptable b log0) as Hkn.
  { intros log0 y log1 E.
    apply (known_genuine a x log0 ([y] ++ log1)); simpl; try done.
    - by rewrite E, <-app_assoc.
    - destruct (exists_last (l := [y] ++ log1)) as (log1' & z & Ez); [done|].
      pose proof (Hk (log0 ++ log1') z) as Hk'. rewrite tagged_app, app_length in Hk'.
      enough (log = (log0 ++ log1') ++ [z]) as El by (specialize (Hk' El); lia).
      rewrite E, <-!app_assoc. f_equal. exact Ez.
    - eauto.
    - destruct (decide (log0 = [])) as [->|Hne]; [by right|]. left.
      exists cfg. clear -Hr E Hne. revert log1 E. induction Hr as [n log Hs|log n l n' log' Hr IH Hs]; intros log1 E.
      + unfold nstart in Hs. destruct (on_start _ _ _ _ _ _) as [[s o] r]. injection Hs as <- <-.
        destruct log0 as [|z log0]; [done|]. destruct log0; discriminate E.
      + apply nstep_inv in Hs as Hsh. assert (exists z, log' = [z]) as [z ->] by (destruct Hsh; subst; eauto). clear Hsh.
        destruct log1 as [|z1 log1 _] using rev_ind.
        * rewrite app_nil_r in E. apply app_inj_tail in E as [-> _]. eauto.
        * rewrite app_assoc in E. apply app_inj_tail in E as [E _]. by eapply IH. }
  assert (all_fresh (done_of x)) as Hf by by apply (HF a x).
  assert (forall log0 y, log = log0 ++ [y] -> known_ok tdec spill acceptable b log0 /\ all_fresh (tagged log0)) as Hpre.
  { intros log0 y E. split; [apply (Hkn log0 y []); by rewrite app_nil_r|].
    unfold done_of in Hf. simpl in Hf. rewrite E, tagged_app in Hf. rewrite take_app_ge in Hf by (by apply (Hk log0 y)).
    by apply all_fresh_app in Hf as [? _]. }
  destruct (noderun_lflow lc tenc tdec spill (cr a) acceptable cert_same b cfg log n w _ Hr Hb Hos HQ Hrg) as [Hfl _]; [|done|].
  { exact (HU a x Ha Hx). }
  rewrite <-(take_drop k (tagged log)) in Hfl. apply lflow_prefix in Hfl.
  split_and!.
  - rewrite votes_cast_snoc, fmap_app. eapply (lflow_stored acceptable _ None (done_of x) w); done.
  - intros w1 k1 -> Hk1.
    assert (forall o (w w' : option (walinfo T)), stored w o w' -> w' = w \/ exists y ok, w' = Some y /\ ASave y ok ∈ o) as Hst.
    { clear. intros o w w' Hs. induction Hs as [|w y ok o w' Hs IH|w y o w' Hs IH|w ac o w' Hsv Hs IH]; [by left|..].
      - right. destruct IH as [->|(z & ok' & -> & ?)]; [exists y, ok; split; [done|by left]|exists z, ok'; split; [done|by right]].
      - destruct IH as [->|(z & ok' & -> & ?)]; [by left|right; exists z, ok'; split; [done|by right]].
      - destruct IH as [->|(z & ok' & -> & ?)]; [by left|right; exists z, ok'; split; [done|by right]]. }
    destruct (Hst _ _ _ Hs) as [<-|(y & ok & [= <-] & Hy)]; [by apply (HQ w1)|].
    assert (ASave w1 ok ∈ actions log) as Hy'.
    { rewrite <-tagged_actions, <-(take_drop k (tagged log)), fmap_app. apply elem_of_app. by left. }
    destruct (saved_known _ _ _ _ _ _ _ _ Hr Hy' Hk1) as (log0 & z & log1 & E & Hq). by apply (Hkn log0 z log1 E).
  - intros h c (y & [Hy|Hy%elem_of_list_singleton]%elem_of_app & Hc); [apply HCm; by exists y|]. subst y.
    apply elem_of_list_split in Hc as (o1 & o2 & E).
    assert (actions log = o1 ++ ACommit h c :: (o2 ++ (drop k (tagged log)).*2)) as E'.
    { rewrite <-tagged_actions. rewrite <-(take_drop k (tagged log)) at 1. rewrite fmap_app.
      unfold done_of, x in E. simpl in E. rewrite E, <-app_assoc. reflexivity. }
    pose proof (noderun_run _ _ _ _ _ _ _ _ _ Hr) as Hrun.
    destruct (C36_commit_has_matching_proof _ _ _ _ _ _ _ _ _ _ _ Hrun _ _ _ _ E') as
      (o0 & w1 & k1 & q & -> & Est & _ & Hk1 & <- & Et & Eh & -> & _).
    exists (wl_votes k1). simpl.
    assert (ASave w1 true ∈ (done_of x).*2) as Hw1 by (rewrite E; set_solver).
    split_and!; [|done..|].
    + assert (ASave w1 true ∈ actions log) as Hw1' by (rewrite E'; set_solver).
      destruct (saved_known _ _ _ _ _ _ _ _ Hr Hw1' Hk1) as (log0 & z & log1 & El & Hq). by apply (Hkn log0 z log1 El).
    + destruct (lflow_saves _ _ _ _ _ _ Hfl Hf Hw1) as (vs & _ & _ & _ & Hne). by apply Hne.
Qed.
(** The votes of an honest node keep to the rules of the argument in Agree. *)
Lemma honest_rules a : honest a -> rules (cert acceptable) (votes_cast (net a)).*2.
Proof using N HC HF HU.
  intros Ha. destruct (nw_lives _ _ _ _ _ _ _ _ N a Ha) as [w Hl].
  destruct (lived_safe a w (net a) Ha ltac:(done) Hl) as (Hos & _ & _).
  destruct w as [w|]; simpl in Hos; [by destruct Hos|]. rewrite Hos. apply rules_nil.
Qed.
Lemma cast_elem a v : cast a v <-> v ∈ (votes_cast (net a)).*2.
Proof.
  clear N HC HF HU. unfold cast. rewrite elem_of_list_fmap. split.
  - intros [f Hf]. by exists (f, v).
  - intros ([f u] & -> & Hu). by exists f.
Qed.
Lemma honest_agree a a' h c c' : honest a -> honest a' -> has_committed (net a) h c -> has_committed (net a') h c' ->
  pf_hash (c_proof c) = pf_hash (c_proof c').
Proof using N HC HF HU.
  intros Ha Ha' Hc Hc'.
  assert (forall a h c, honest a -> has_committed (net a) h c -> exists r, quorum_cast l byz cast (mkVote h r Precommit (pf_hash (c_proof c))) /\
    pf_hash (c_proof c) <> []) as HQ.
  { clear a a' h c c' Ha Ha' Hc Hc'. intros a h c Ha Hc. destruct (nw_lives _ _ _ _ _ _ _ _ N a Ha) as [w Hl].
    destruct (lived_safe a w (net a) Ha ltac:(done) Hl) as (_ & _ & HCm). destruct (HCm _ _ Hc) as (q & [->|Hq] & Et & <- & <- & Hne); [done|].
    exists (av_round q). split; [|done]. unfold genuine, to_vote in Hq. by rewrite Et in Hq. }
  destruct (HQ a h c Ha Hc) as (r & H1 & N1), (HQ a' h c' Ha' Hc') as (r' & H2 & N2).
  eapply (agree l byz cast (nw_few _ _ _ _ _ _ _ _ N)); [| | |exact N1|exact N2|exact H1|exact H2].
  - intros n v v' Hn Hb. apply cast_once. by apply honest_in.
  - intros n v Hn Hb Hv Hp. pose proof (honest_rules _ (honest_in _ Hn Hb)) as Hru.
    apply cast_elem in Hv. destruct (ru_justified _ _ Hru v Hv Hp) as [Hg|(q & E & Hg & Hno)].
    + left. by apply cert_prevotes.
    + right. exists q. split_and!; [done|by apply cert_prevotes|]. intros v' Hv'%cast_elem. by apply Hno.
  - intros n v v' Hn Hb Hv Hv' Hp Ht Eh Hr. pose proof (honest_rules _ (honest_in _ Hn Hb)) as Hru.
    apply cast_elem in Hv, Hv'. destruct (ru_kept _ _ Hru v v' Hv Hv' Hp Ht Eh Hr) as [?|(q & y & Hg & ?)]; [by left|].
    right. exists q, y. split; [by apply cert_prevotes|done].
Qed.
End Net.
End P.

(** ** C28: agreement. *)
(** Two honest validators never commit different blocks at one height, whatever the schedules,
    the crashes and what less than a third of the weight does, as long as the certificates the
    nodes process are acceptable, no vote event is stale, and a lock is only taken away by a proof
    of lock for another block. Missing for the full claim: these three conditions are not ensured
    by the code (C16-C18, C35, and the refutation below), and rounds at 2^64 - 1. *)
Theorem C28_agreement_partial :
  forall (T : Type) (D : EqDecision T) lc tenc tdec spill l byz cr net,
    network (T:=T) lc tenc tdec spill l byz cr net ->
    certs_genuine l byz net -> votes_fresh l byz net -> unlocks_justified l byz net ->
    forall a a' h c c',
      honest l byz a -> honest l byz a' -> has_committed (net a) h c -> has_committed (net a') h c' ->
      pf_hash (c_proof c) = pf_hash (c_proof c').
Proof. intros T D lc tenc tdec spill l byz cr net N HC HF HU a a' h c c'. by apply (honest_agree lc tenc tdec spill l byz cr net N HC HF HU). Qed.
Print Assumptions C28_agreement_partial.
