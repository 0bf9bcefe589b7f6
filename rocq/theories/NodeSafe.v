(** * NodeSafe: when does the state module panic? *)
From Verif Require Export P_Node.
Set Default Proof Using "Type".

Section Safe.
Context {T : Type} `{EqDecision T}.
Context (lc : lcfg) (tenc : T -> bytes) (tdec : bytes -> option T) (spill : bool).

(** Leader selection does not panic for these validators. *)
Definition leader_ok (a : auth) : Prop := forall h r, get_proposer lc a h r <> Panic.
Definition safe {A} (x : M T A) : Prop :=
  forall s s' o r, leader_ok (s_auth s) -> x s = (s', o, r) -> r <> Panic /\ leader_ok (s_auth s').

Lemma safe_bind {A B} (x : M T A) (k : A -> M T B) : safe x -> (forall a, safe (k a)) -> safe (bind x k).
Proof.
  intros Hx Hk s s' o r Hs Hb. apply bind_inv in Hb as [(a & s1 & o1 & o2 & H1 & H2 & ->)|[(e & H1 & ->)|(H1 & ->)]].
  - apply Hx in H1 as [_ H1]; [|done]. by apply Hk in H2.
  - apply Hx in H1 as [_ H1]; done.
  - apply Hx in H1 as [H1 _]; done.
Qed.
Lemma safe_get {A} (f : st T -> M T A) : (forall s0, leader_ok (s_auth s0) -> safe (f s0)) -> safe (get f).
Proof. intros Hf s s' o r Hs Hb. unfold get in Hb. by eapply Hf in Hb. Qed.
Lemma safe_ret {A} (a : A) : safe (ret a).
Proof. intros s s' o r Hs Hb. unfold ret in Hb. by simplify_eq. Qed.
Lemma safe_fail {A} e : safe (fail (A:=A) e).
Proof. intros s s' o r Hs Hb. unfold fail in Hb. by simplify_eq. Qed.
Lemma safe_lift {A} (x : res A) : x <> Panic -> safe (lift x).
Proof. intros Hx s s' o r Hs Hb. unfold lift in Hb. by simplify_eq. Qed.
Lemma safe_modify f : (forall s, s_auth (f s) = s_auth s) -> safe (modify f).
Proof. intros Hf s s' o r Hs Hb. unfold modify in Hb. simplify_eq. by rewrite Hf. Qed.
Lemma safe_emit a : safe (emit a).
Proof. intros s s' o r Hs Hb. unfold emit in Hb. by simplify_eq. Qed.
Lemma safe_logged (x : M T unit) : safe x -> safe (logged x).
Proof.
  intros Hx s s' o r Hs Hb. apply logged_inv in Hb as (r' & Hb & Hr). apply Hx in Hb as [H1 H2]; [|done].
  split; [|done]. destruct Hr as [[? _]|[_ ->]]; done.
Qed.
End Safe.

Ltac safe_step :=
  match goal with
  | |- safe _ (bind _ _) => apply safe_bind; [|intro]
  | |- safe _ (get _) => apply safe_get; intros ? ?
  | |- safe _ (ret _) => apply safe_ret
  | |- safe _ (fail _) => apply safe_fail
  | |- safe _ (logged _) => apply safe_logged
  | |- safe _ (modify _) => apply safe_modify; intro
  | |- safe _ (emit _) => apply safe_emit
  | |- safe _ (broadcast _) => unfold broadcast
  | |- safe _ (transmit _) => unfold transmit
  | |- safe _ (let '(_, _) := ?x in _) => destruct x eqn:?
  | |- safe _ (if ?b then _ else _) => destruct b eqn:?
  | |- safe _ (match ?x with _ => _ end) => destruct x eqn:?
  end.
Ltac safe_unfold :=
  match goal with |- safe _ ?x =>
    let h := head_of x in
    match h with
    | @handle_brake => unfold handle_brake
    | @handle_vote_event => unfold handle_vote_event | @vote_process => unfold vote_process
    | @publish_qc => unfold publish_qc | @count_now => unfold count_now
    | @generate_qc => unfold generate_qc | @is_proposer => unfold is_proposer
    | @set_update_from => unfold set_update_from
    | @handle_signed_proposal => unfold handle_signed_proposal
    | @verify_proposer => unfold verify_proposer | @verify_address => unfold verify_address
    | @check_block => unfold check_block | @filter_signed_proposal => unfold filter_signed_proposal
    | @props_insert => unfold props_insert
    | @save_wal_with_lock_round => unfold save_wal_with_lock_round | @save_wal => unfold save_wal
    | @trigger_smr => unfold trigger_smr | @sign_proposal => unfold sign_proposal
    | @sign_vote => unfold sign_vote | @aggregate_signatures => unfold aggregate_signatures
    | @handle_signed_vote => unfold handle_signed_vote
    | @handle_aggregated_vote => unfold handle_aggregated_vote
    | @handle_aggregated_choke => unfold handle_aggregated_choke
    | @handle_signed_choke => unfold handle_signed_choke
    | @handle_resp => unfold handle_resp
    | @wal_lost => unfold wal_lost
    end end.
Create HintDb safedb discriminated.
Ltac safe_go := repeat first [solve [eauto 1 with safedb nocore] | safe_step | safe_unfold].

Section Safe2.
Context {T : Type} `{EqDecision T}.
Context (lc : lcfg) (tenc : T -> bytes) (tdec : bytes -> option T) (spill : bool).
Lemma safe_qc_by_id (c : votecol) h r t : safe (T:=T) lc (lift (vc_get_qc_by_id c h r t)).
Proof. apply safe_lift. unfold vc_get_qc_by_id. case_match; done. Qed.
Lemma safe_get_votes (c : votecol) h r t x : safe (T:=T) lc (lift (vc_get_votes c h r t x)).
Proof. apply safe_lift. unfold vc_get_votes. case_match; done. Qed.
Lemma safe_counting a (c : votecol) h r t : safe (T:=T) lc (lift (counting_vote a c h r t)).
Proof.
  apply safe_lift. unfold counting_vote. destruct (vc_get_vote_map c h r t) as [m| |] eqn:E; simpl; [|done|].
  - clear E. generalize (prod_map id elements <$> map_to_list m). intros l.
    induction l as [|[x as_] l IH]; simpl; [done|].
    assert (forall acc, count_addrs a as_ acc <> Panic) as Hc.
    { clear. induction as_ as [|y as_ IH]; intros acc; simpl; [done|]. unfold get_vote_weight.
      destruct (a_vmap a !! y); simpl; [apply IH|done]. }
    specialize (Hc 0). destruct (count_addrs a as_ 0); simpl; try done. by case_match.
  - unfold vc_get_vote_map in E. destruct (vc_round c h r); [|done]. cbv zeta in E. by destruct (decide _).
Qed.
Lemma safe_leader a h r : leader_ok lc a -> safe (T:=T) lc (lift (get_proposer lc a h r)).
Proof. intros Ha. apply safe_lift, Ha. Qed.
Lemma safe_insert (c : propcol T) h r sp : safe (T:=T) lc (lift (pc_insert c h r sp).2).
Proof. apply safe_lift. unfold pc_insert. repeat case_match; done. Qed.
Local Hint Resolve safe_qc_by_id safe_get_votes safe_counting safe_leader : safedb.
Local Hint Extern 1 (safe _ (lift (get_proposer _ _ _ _))) => apply safe_leader; assumption : safedb.
Local Hint Extern 1 (s_auth _ = s_auth _) => first [reflexivity | repeat case_match; reflexivity] : safedb.

Lemma safe_check_choke (e : env T) : safe lc (check_choke_above_threshold e).
Proof.
  unfold check_choke_above_threshold. safe_go. exfalso.
  unfold cc_max_round in Heqo. cbv zeta in Heqo.
  destruct (List.find _ _) as [[r0 m0]|] eqn:Hf; simpl in Heqo; [|done]. injection Heqo as ->.
  apply List.find_some in Hf as [Hf _]. apply elem_of_list_In in Hf.
  rewrite merge_sort_Permutation in Hf. apply elem_of_map_to_list in Hf.
  unfold cc_get_chokes in Heqo0. apply fmap_None in Heqo0. discriminate (eq_trans (eq_sym Hf) Heqo0).
Qed.
Local Hint Resolve safe_check_choke : safedb.
Lemma safe_hsp (e : env T) sp : safe lc (handle_signed_proposal lc e sp).
Proof.
  safe_go.
  all: match goal with E : pc_insert ?c ?h ?rr ?x = (_, ?r) |- _ =>
    pose proof (safe_insert c h rr x) as Hi; rewrite E in Hi; exact Hi end.
Qed.
Local Hint Resolve safe_hsp : safedb.
Lemma safe_new_round (e : env T) nr lr lp from : safe lc (handle_new_round lc tenc e nr lr lp from).
Proof.
  unfold handle_new_round, make_proposal. safe_go.
  exfalso. match goal with H : negb (Bool.eqb _ _) = false |- _ => apply negb_false_iff, eqb_prop in H;
    rewrite (bool_decide_eq_true_2 (is_Some (Some _))) in H by eauto; rewrite bool_decide_eq_false_2 in H by (by intros [? ?]); done end.
Qed.
Lemma safe_goto (e : env T) stt :
  leader_ok lc (auth_update (st_auth stt)) -> safe lc (goto_new_height e stt).
Proof.
  clear tenc tdec spill. intros Hl s s' o r Hs Hg.
  apply goto_inv in Hg as [(_ & -> & _ & ->)|[(_ & _ & -> & _ & ->)|[(_ & _ & -> & _ & ->)|(_ & _ & -> & tr & _ & Htr)]]]; try done.
  split; [destruct Htr as [[_ ->]|[_ ->]]; done|]. unfold moved_full. by destruct (st_interval stt).
Qed.
(** The commit handler panics only because of the validators answered by the user's commit. *)
Lemma safe_commit (e : env T) hash s s' o r :
  handle_commit lc e hash s = (s', o, r) -> r = Panic ->
  exists h c stt, ACommit h c ∈ o /\ e_commit e h c = Some stt /\
    get_proposer lc (auth_update (st_auth stt)) (st_height stt) INIT_ROUND = Panic.
Proof.
  clear tenc tdec spill. intros Hc ->. unfold handle_commit in Hc. minv; ro_subst.
  all: try (exfalso; match goal with H : goto_new_height _ _ _ = (_, _, Panic) |- _ =>
      apply goto_inv in H as [(_ & _ & _ & ?)|[(_ & _ & _ & _ & ?)|[(_ & _ & _ & _ & ?)|(_ & _ & _ & tr & _ & [[_ ?]|[_ ?]])]]]; done end).
  all: try (exfalso; match goal with H : save_wal _ _ _ _ = (_, _, Panic) |- _ => apply save_wal_inv in H as (_ & _ & H); by case_match end).
  eexists _, _, _. split; [|split; [eassumption|done]]. set_solver.
Qed.
Lemma safe_brake (e : env T) rd lr : safe lc (handle_brake e rd lr).
Proof. safe_go. Qed.
Lemma safe_event (e : env T) ev :
  ev <> EvStop -> (forall x, ev <> EvCommit x) -> safe lc (handle_event lc tenc e ev).
Proof.
  intros H1 H2. unfold handle_event. destruct ev; try done; safe_go. apply safe_new_round. by destruct (H2 hash).
Qed.
Lemma safe_resp (e : env T) r : safe lc (on_resp e r).
Proof. unfold on_resp. safe_go. Qed.
Lemma safe_handle_msg (e : env T) m :
  (forall stt, m = MStatus stt -> leader_ok lc (auth_update (st_auth stt))) -> safe lc (handle_msg lc e m).
Proof.
  intros Hm. unfold handle_msg. apply safe_get. intros s0 Hs0. destruct (_ && _); [apply safe_ret|].
  destruct m; safe_go. by apply safe_goto, Hm.
Qed.
Lemma safe_raw m : m <> MStop -> safe (T:=T) lc (on_raw m).
Proof.
  intros Hm. unfold on_raw. safe_go. apply safe_lift. by destruct m.
Qed.
(** One iteration of the loop. *)
Lemma react_safe (e : env T) i s s' o r :
  leader_ok lc (s_auth s) ->
  i <> IRaw MStop -> i <> IEvent EvStop ->
  (forall stt, i = IMsg (MStatus stt) -> leader_ok lc (auth_update (st_auth stt))) ->
  react lc tenc e i s = (s', o, r) -> r = Panic ->
  exists h c stt, ACommit h c ∈ o /\ e_commit e h c = Some stt /\ ~ leader_ok lc (auth_update (st_auth stt)).
Proof.
  intros Hs H1 H2 H3 Hr ->. destruct i as [m|ev|rs|m]; simpl in Hr.
  - exfalso. apply (safe_bind lc) in Hr as [Hr _]; try done; [|intros; apply safe_ret]. apply safe_raw. congruence.
  - unfold on_event, get in Hr. destruct (s_stopped s); [unfold ret in Hr; by simplify_eq|].
    destruct (negb (s_power s)); [unfold ret in Hr; by simplify_eq|].
    assert ((exists x, ev = EvCommit x) \/ ~ exists x, ev = EvCommit x) as [[x ->]|Hn] by (destruct ev; eauto; right; by intros [? ?]).
    + apply bind_inv in Hr as [(a & s1 & o1 & o2 & Hr1 & Hr2 & ->)|[(? & Hr & ?)|(Hr & _)]]; [unfold ret in Hr2; by simplify_eq|done|].
      apply logged_inv in Hr as (r1 & Hr & [[-> _]|[_ ?]]); [|done].
      simpl in Hr. apply logged_inv in Hr as (r2 & Hr & [[-> _]|[_ ?]]); [|done].
      apply safe_commit in Hr as (h & c & stt & ? & ? & Hp); [|done]. exists h, c, stt. split_and!; try done.
      intros Hl. by apply (Hl (st_height stt) INIT_ROUND).
    + exfalso. apply (safe_bind lc) in Hr as [Hr _]; try done; [|intros; apply safe_ret].
      apply safe_logged, safe_event; [congruence|]. intros x ->. apply Hn. eauto.
  - exfalso. apply (safe_bind lc) in Hr as [Hr _]; try done; [|intros; apply safe_ret]. apply safe_resp.
  - exfalso. apply bind_inv in Hr as [(a & s1 & o1 & o2 & Hr1 & Hr2 & ->)|[(? & Hr & ?)|(Hr & _)]]; [unfold ret in Hr2; by simplify_eq|done|].
    unfold on_msg in Hr. destruct (handle_msg lc e m s) as [[s1 o1] r1] eqn:E.
    apply (safe_handle_msg) in E as [Hn _]; [|intros stt ->; by apply H3|done]. destruct r1; simplify_eq.
Qed.
End Safe2.

Section Safe3.
Context {T : Type} `{EqDecision T}.
Context (lc : lcfg) (tenc : T -> bytes) (tdec : bytes -> option T) (spill : bool).
(** Every validator list the user's [commit] answers selects a leader. *)
Definition env_ok (e : env T) : Prop :=
  forall h c stt, e_commit e h c = Some stt -> leader_ok lc (auth_update (st_auth stt)).
Lemma safe_commit2 (e : env T) x : env_ok e -> safe lc (handle_commit lc e x).
Proof.
  clear tenc tdec spill. intros He s s' o r Hs Hc. split.
  - intros ->. apply safe_commit in Hc as (h & c & stt & _ & Hc & Hp); [|done]. by apply (He _ _ _ Hc) in Hp.
  - apply authR_commit in Hc as [E|[(? & ? & _)|(h & c & stt & _ & Hc & E)]]; [by rewrite E|done|].
    rewrite E. by eapply He.
Qed.
(** The input cannot make the state module panic. *)
Definition harmless (i : input T) : Prop :=
  i <> IRaw MStop /\ i <> IEvent EvStop /\
  forall stt, i = IMsg (MStatus stt) -> leader_ok lc (auth_update (st_auth stt)).
Lemma safe_react (e : env T) i : env_ok e -> harmless i -> safe lc (react lc tenc e i).
Proof.
  clear tdec spill. intros He (H1 & H2 & H3) s s' o r Hs Hr. split.
  - intros ->. eapply react_safe in Hr as (h & c & stt & _ & Hc & Hn); eauto.
  - apply authR_react in Hr as [E|[(stt & Hi & E)|(h & c & stt & _ & Hc & E)]]; rewrite E.
    + done.
    + apply H3. destruct i as [| | |[]]; simpl in Hi; simplify_eq; done.
    + by eapply He.
Qed.
Lemma safe_start (e : env T) loaded :
  env_ok e -> load_wal tdec spill loaded <> Panic -> safe lc (on_start lc tdec spill e loaded).
Proof.
  intros He Hl. unfold on_start, start_with_wal. apply safe_logged.
  apply safe_get. intros s0 Hs0. destruct (negb _); [apply safe_ret|].
  apply safe_bind; [by apply safe_lift|]. intros [w|].
  - apply safe_bind; [by apply safe_modify|]. intros [].
    apply safe_bind.
    { unfold is_proposer. apply safe_get. intros s1 Hs1. apply safe_bind; [apply safe_lift, Hs1|].
      intros p. safe_go; done. }
    intros ld. apply safe_bind; [by apply safe_modify|]. intros [].
    apply safe_bind. { destruct (wi_lock w); [by apply safe_modify|apply safe_ret]. }
    intros []. destruct (bool_decide _).
    + destruct (wi_lock w); [by apply safe_commit2|apply safe_fail].
    + apply safe_bind; [|intros []; safe_go].
      destruct (bool_decide _); [|apply safe_ret]. apply safe_brake.
  - safe_go.
Qed.
End Safe3.

(** A list with at least one validator (and fewer than 2^32) always has a round-robin leader. *)
Lemma rotation_leader_ok lc l :
  lc_random lc = false -> 0 < N.of_nat (length l) < U32 -> leader_ok lc (auth_update l).
Proof.
  intros Hr Hl h r. unfold get_proposer. rewrite Hr, auth_update_addr, fmap_length, (Permutation_length (ksort_perm n_addr l)).
  unfold rotation_leader_index. cbv zeta. unfold w32. rewrite N.mod_small by lia.
  destruct (N.eqb_spec (N.of_nat (length l)) 0); [lia|]. cbn. by case_match.
Qed.

(** ** Stop *)
Section Quiet.
Context {T : Type} `{EqDecision T}.
Context (lc : lcfg) (tenc : T -> bytes) (tdec : bytes -> option T) (spill : bool).
Definition quiet (s : st T) (o : list (action T)) (s' : st T) : Prop :=
  s_stopped s' = s_stopped s /\
  (forall t, ATrigger t ∈ o -> t_type t <> TStop) /\
  (forall m, AQueue m ∈ o -> m <> MStop) /\ (forall a m, AVerify a m ∈ o -> m <> MStop).
Definition quietR (i : input T) s o s' := i = IMsg MStop \/ quiet s o s'.
Lemma quiet_comp : comp quiet.
Proof.
  clear. split; [intros s; split_and!; [done|by intros ? ?%elem_of_nil|by intros ? ?%elem_of_nil|by intros ? ? ?%elem_of_nil]|].
  intros s1 s2 s3 o1 o2 (A1 & A2 & A3 & A4) (B1 & B2 & B3 & B4). split_and!; [congruence|..];
    [intros ? [?|?]%elem_of_app|intros ? [?|?]%elem_of_app|intros ? ? [?|?]%elem_of_app]; eauto.
Qed.
Lemma quietR_comp i : comp (quietR i).
Proof.
  clear. destruct quiet_comp as [C1 C2]. split; [by right|]. intros s1 s2 s3 o1 o2 [?|?] [?|?]; [by left..|right; eauto].
Qed.
Lemma quiet_goto e stt : keeps quiet (goto_new_height (T:=T) e stt).
Proof.
  clear lc tenc tdec spill. intros s s' o r Hg.
  apply goto_inv in Hg as [(? & -> & -> & _)|[(? & _ & -> & -> & _)|[(? & _ & -> & -> & _)|(Hlt & _ & -> & tr & -> & Htr)]]].
  - apply quiet_comp.
  - split_and!; [done|by intros ? ?%elem_of_nil|by intros ? ?%elem_of_nil|by intros ? ? ?%elem_of_nil].
  - split_and!; try done; [intros ? ?%elem_of_list_singleton|intros ? ?%elem_of_list_singleton|intros ? ? ?%elem_of_list_singleton]; done.
  - assert (forall x, x ∈ tr -> x = ATrigger (new_height_trigger (status_smr stt))) as Ht.
    { destruct Htr as [[-> _]|[-> _]]; [by intros x ?%elem_of_list_singleton|by intros x ?%elem_of_nil]. }
    split_and!.
    + unfold moved_full. by destruct (st_interval stt).
    + intros t [?|[(? & ? & _)%elem_of_list_fmap|Hx%Ht]%elem_of_app]%elem_of_cons; try done. by injection Hx as ->.
    + intros t [?|[(? & ? & _)%elem_of_list_fmap|Hx%Ht]%elem_of_app]%elem_of_cons; done.
    + intros a m [?|[(m' & Hm & Hx)%elem_of_list_fmap|Hx%Ht]%elem_of_app]%elem_of_cons; try done.
      injection Hm as -> ->. unfold goto_reverify in Hx. apply elem_of_app in Hx as [(? & -> & _)%elem_of_list_fmap|Hx]; [done|].
      destruct (vc_take_height _ _).2 as [[vs qs]|]; [|by apply elem_of_nil in Hx].
      by apply elem_of_app in Hx as [(? & -> & _)%elem_of_list_fmap|(? & -> & _)%elem_of_list_fmap].
Qed.
Local Hint Resolve quiet_goto : keepsdb.
Ltac quiet_one Ht := first [by apply elem_of_nil in Ht|
    apply elem_of_list_singleton in Ht; first [discriminate Ht|injection Ht as ->; unfold vtype_trigger; simpl; repeat case_match; done|idtac]].
Ltac quiet_fin := intros; split_and!; simpl; [repeat case_match; done|
  intros ? Ht; quiet_one Ht|intros ? Ht; quiet_one Ht|intros ? ? Ht; quiet_one Ht].
Lemma quiet_commit e x : keeps quiet (handle_commit lc e x).
Proof. clear tenc tdec spill. keeps_go quiet_comp; quiet_fin. Qed.
Lemma quiet_react e i : i <> IMsg MStop -> keeps quiet (react lc tenc e i).
Proof.
  clear tdec spill. intros Hi. apply (keeps_react _ _ _ quiet_comp).
  - intros m ->. apply (keeps_on_msg _ _ quiet_comp); [quiet_fin|]. destruct m; [..|done]; unfold handle_msg; keeps_go quiet_comp; quiet_fin.
  - intros m ->. destruct m; [unfold on_raw; simpl; keeps_go quiet_comp; quiet_fin; by injection Ht as -> ->..|].
    intros s s' o r Hr. unfold on_raw, bind, lift in Hr. simpl in Hr. injection Hr as <- <- <-. apply quiet_comp.
  - intros m _. keeps_go quiet_comp; quiet_fin.
  - intros m _. keeps_go quiet_comp; quiet_fin.
Qed.
Lemma quiet_start e l : keeps quiet (on_start lc tdec spill e l).
Proof.
  clear tenc. pose proof quiet_commit as Hc. unfold on_start. apply keeps_logged. unfold start_with_wal.
  keeps_go quiet_comp; quiet_fin.
Qed.
End Quiet.
