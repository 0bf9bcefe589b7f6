(** * P_Quorum: a quorum of votes becomes a certificate (C54). *)
From Verif Require Export P_Decide P_Cause NodeHeld Agree.
Set Default Proof Using "Type".

(** ** Counting finds the quorum *)
Lemma counts_quorum vals ops h r t x Q :
  distinct vals -> total_weight vals < 2 ^ 32 ->
  (forall a v, first_vote ops h r t a = Some v -> a ∈ n_addr <$> vals) ->
  (forall a, a ∈ Q -> exists v, first_vote ops h r t a = Some v /\ v_hash (sv_vote v) = x) ->
  3 * weight_of Q vals > 2 * total_weight vals ->
  counting_vote (auth_update vals) (vops ops) h r t = Ok (Some x).
Proof.
  intros Hd Ht Hin HQ Hw.
  assert (exists a, a ∈ Q) as [a0 Ha0].
  { destruct Q as [|a Q]; [|exists a; by left]. exfalso.
    assert (weight_of [] vals <= sumN (fun _ => 0) vals) as E.
    { apply sumN_le. intros y _. by rewrite bool_decide_eq_false_2 by apply not_elem_of_nil. }
    assert (forall l : list vnode, sumN (fun _ => 0) l = 0) as E0 by (induction l as [|? ? IH]; [done|exact IH]). rewrite E0 in E. lia. }
  destruct (C10_first_vote_per_validator ops h r t) as [_ Hmap].
  pose proof (C11_counting_vote vals (vops ops) h r t) as Hc.
  destruct (vc_get_vote_map (vops ops) h r t) as [m| |] eqn:Em.
  2-3: exfalso; rewrite get_map_rnd in Em; fold (vs_of (vops ops) h r t) in Em; simpl in Em; destruct (decide _) as [E0|]; [|done];
    destruct (HQ _ Ha0) as (v & Hv & _); rewrite <-vops_first_vote in Hv;
    destruct (vops_votes_ok ops h r t) as (_ & H2 & _);
    destruct (proj2 (H2 (v_hash (sv_vote v)) a0)) as (s0 & Hs0 & _); [by exists v|]; rewrite E0 in Hs0; by rewrite lookup_empty in Hs0.
  destruct Hc as (l & Hl & ->); [lia|].
  pose proof (C11_counting_exact_any_order vals ops h r t m l Hd Ht Hin Em Hl) as Hx. cbv zeta in Hx.
  assert (3 * weight_where (fun a => match first_vote ops h r t a with
                         | Some v => bool_decide (v_hash (sv_vote v) = x) | None => false end) vals > 2 * total_weight vals) as Hq.
  { enough (weight_of Q vals <= weight_where (fun a => match first_vote ops h r t a with
                         | Some v => bool_decide (v_hash (sv_vote v) = x) | None => false end) vals) by lia.
    apply sumN_le. intros n _. case_bool_decide as E; [|lia]. destruct (HQ _ E) as (v & -> & Hv). by rewrite bool_decide_eq_true_2. }
  destruct (count_hashes _ _ l) as [[y|]| |]; [|by destruct (Hx x)|done..].
  destruct Hx as [_ Hx]. by rewrite (Hx x Hq).
Qed.

Section Q.
Context {T : Type} `{EqDecision T}.
Context (lc : lcfg) (tenc : T -> bytes) (tdec : bytes -> option T) (spill : bool) (cr : crypto).
Local Notation noderun := (noderun lc tenc tdec spill cr).

(** ** What a height keeps *)
Definition fvote (s : st T) (h r : N) (t : vtype) (a : bytes) : option svote := vs_by_addr (vs_of (s_votes s) h r t) !! a.
Definition has_qc (s : st T) (h r : N) (t : vtype) : Prop := exists q, vc_get_qc_by_id (s_votes s) h r t = Ok q.
Definition fwdR (s : st T) (_ : list (action T)) (s' : st T) : Prop :=
  s_height s <= s_height s' /\
  (s_height s' = s_height s -> s_power s' = s_power s /\
     (forall h r t a v, fvote s h r t a = Some v -> fvote s' h r t a = Some v) /\
     (forall h r t, has_qc s h r t -> has_qc s' h r t)).
Lemma fwd_comp : comp fwdR.
Proof.
  clear lc tenc tdec spill cr. split; [intros s0; split; [lia|auto]|]. intros s1 s2 s3 o1 o2 [A1 A2] [B1 B2]. split; [lia|].
  intros E. destruct A2 as (A2 & A3 & A4); [lia|]. destruct B2 as (B2 & B3 & B4); [lia|]. split_and!; [congruence|auto..].
Qed.
Lemma fwd_goto e stt : keeps fwdR (goto_new_height (T:=T) e stt).
Proof.
  clear lc tenc tdec spill cr. intros s s' o r Hg.
  apply goto_inv in Hg as [(? & -> & -> & _)|[(? & _ & -> & -> & _)|[(? & _ & -> & _)|(? & _ & -> & _)]]].
  - apply fwd_comp.
  - split; simpl; [lia|intros; lia].
  - split; simpl; [lia|intros; lia].
  - unfold moved_full. split; destruct (st_interval stt); simpl; try (intros; lia).
Qed.
Local Hint Resolve fwd_goto : keepsdb.
Lemma fwd_same (s : st T) o s' : s_height s' = s_height s -> s_power s' = s_power s -> s_votes s' = s_votes s -> fwdR s o s'.
Proof. clear lc tenc tdec spill cr. intros E1 E2 E4. split; [lia|]. intros _. unfold fvote, has_qc. rewrite E2, E4. auto. Qed.
Lemma fvote_op (s s' : st T) op : s_votes s' = vop_run (s_votes s) op -> (match op with VTake _ | VFlush _ => False | _ => True end) ->
  forall h r t a v, fvote s h r t a = Some v -> fvote s' h r t a = Some v.
Proof.
  clear lc tenc tdec spill cr. intros E Hop h r t a v. unfold fvote. rewrite E, vs_of_step. destruct op; try done.
  destruct (_ && _); [|done]. intros Hv. by rewrite votes_insert_addr, Hv.
Qed.
Lemma has_qc_op (s s' : st T) op : s_votes s' = vop_run (s_votes s) op -> (match op with VTake _ | VFlush _ => False | _ => True end) ->
  forall h r t, has_qc s h r t -> has_qc s' h r t.
Proof.
  clear lc tenc tdec spill cr. intros E Hop h r t [q Hq]. unfold has_qc. rewrite E. rewrite get_qc_rnd in Hq |- *.
  destruct (qcpair_get (rc_qc (rnd (s_votes s) h r)) t) as [q0|] eqn:Eq; [|done]. clear Hq q E.
  enough (exists q, qcpair_get (rc_qc (rnd (vop_run (s_votes s) op) h r)) t = Some q) as [q ->] by by exists q.
  destruct op as [v|q'| |]; try done; cbn [vop_run].
  - rewrite rnd_vote. destruct (decide _); [|by exists q0].
    exists q0. rewrite <-Eq. unfold rc_insert_vote. by destruct (v_type (sv_vote v)).
  - rewrite rnd_qc. destruct (decide _); [|by exists q0].
    unfold rc_set_qc, qcpair_set. simpl. destruct (av_type q'), t; simpl in *; eauto.
Qed.
Lemma fwd_op (s : st T) o s' op : s_height s' = s_height s -> s_power s' = s_power s -> s_votes s' = vop_run (s_votes s) op ->
  (match op with VTake _ | VFlush _ => False | _ => True end) -> fwdR s o s'.
Proof.
  clear lc tenc tdec spill cr. intros E1 E2 E3 Hop. split; [lia|]. intros _. split_and!; [done|by eapply fvote_op|by eapply has_qc_op].
Qed.
Ltac fwd_fin := first [by apply fwd_same|
  match goal with
  | |- fwdR _ _ (set_s_votes (vc_insert_vote _ _ ?v _) _) => by apply (fwd_op _ _ _ (VVote v))
  | |- fwdR _ _ (set_s_votes (vc_set_qc _ ?q) _) => by apply (fwd_op _ _ _ (VQC q))
  end|idtac].
Lemma fwd_own e hash t lr : keeps fwdR (handle_vote_event (T:=T) e hash t lr).
Proof.
  clear lc tenc tdec spill cr. assert (keeps fwdR (vote_process (T:=T) e t)) as Hvp by (keeps_go fwd_comp; intros; fwd_fin).
  intros s s' o r Hv. apply vote_event_inv in Hv as [(-> & -> & _)|(sig & lk & _ & _ & [(_ & -> & -> & _)|(_ & o2 & Hv)])]; [apply fwd_comp|by apply fwd_same|].
  destruct (s_leader s); destruct Hv as [_ Hv]; apply Hvp in Hv; [|exact Hv].
  apply (comp_app _ fwd_comp s (with_vote (own_vote sig t hash s) s) s' [] o2); [|exact Hv]. by apply (fwd_op _ _ _ (VVote (own_vote sig t hash s))).
Qed.
Local Hint Resolve fwd_own : keepsdb.
Lemma fwd_react e i : keeps fwdR (react lc tenc e i).
Proof.
  clear tdec spill cr. apply (keeps_react _ _ _ fwd_comp).
  - intros m ->. apply (keeps_on_msg _ _ fwd_comp); [intros; by apply fwd_same|]. keeps_go fwd_comp; intros; fwd_fin.
  - intros m _. keeps_go fwd_comp; intros; fwd_fin.
  - intros m _. keeps_go fwd_comp; intros; fwd_fin.
  - intros ev ->. destruct ev; keeps_go fwd_comp; intros; fwd_fin.
    case_match; by apply fwd_same.
Qed.

(** ** A vote is counted *)
Definition tally (e : env T) (t : vtype) : M T unit :=
  bind (count_now t) (fun h => match h with None => ret tt | Some hash => publish_qc e hash t end).
Lemma fwd_tally e t : keeps fwdR (tally e t).
Proof. clear lc tenc tdec spill cr. unfold tally. keeps_go fwd_comp; intros; fwd_fin. Qed.
(** A vote for the current height and a round from the current one on. *)
Definition timely (v : svote) (s : st T) : Prop :=
  v_height (sv_vote v) = s_height s /\ s_round s <= v_round (sv_vote v) <= s_round s + FUTURE_ROUND_GAP.
Definition far_from_end (s : st T) : Prop := s_height s + FUTURE_HEIGHT_GAP < 2 ^ 64 /\ s_round s + FUTURE_ROUND_GAP < 2 ^ 64.
Lemma timely_kept v s : timely v s -> far_from_end s -> filter_message s (v_height (sv_vote v)) (v_round (sv_vote v)) = false.
Proof.
  clear lc tenc tdec spill cr. intros (E & H1 & H2) (H3 & H4). unfold filter_message. rewrite E, !w64_small by (unfold U64; lia).
  rewrite N.eqb_refl, N.ltb_irrefl. cbn [andb orb].
  destruct (N.ltb_spec (v_round (sv_vote v)) (s_round s)); [lia|].
  destruct (N.ltb_spec (s_height s + FUTURE_HEIGHT_GAP) (s_height s)); [lia|].
  destruct (N.ltb_spec (s_round s + FUTURE_ROUND_GAP) (v_round (sv_vote v))); [lia|]. done.
Qed.
Lemma vote_step l e v s s' o r :
  react lc tenc e (IMsg (MVote v)) s = (s', o, r) -> s_power s = true -> s_auth s = auth_update l -> sv_voter v ∈ n_addr <$> l ->
  timely v s -> far_from_end s ->
  (has_qc s (s_height s) (v_round (sv_vote v)) (v_type (sv_vote v)) /\ s' = s /\ o = []) \/
  exists r', tally e (v_type (sv_vote v)) (with_vote v s) = (s', o, r').
Proof.
  clear tdec spill cr. intros Hr Hp Ea Hv Ht Hf.
  eapply react_core in Hr; [|reflexivity]. destruct Hr as [(Hsk & _)|(_ & r' & Hr & _)].
  { exfalso. destruct Hsk as [[? _]|[_ [? ?]]]; [congruence|done]. }
  unfold handle_signed_vote, get in Hr. cbv zeta in Hr. rewrite (timely_kept _ _ Ht Hf) in Hr. destruct Ht as (E & _).
  unfold bind at 1, verify_address, get in Hr. rewrite Ea in Hr.
  rewrite (proj2 (auth_contains_spec l (sv_voter v)) Hv) in Hr. unfold ret at 1 in Hr. rewrite E in Hr.
  destruct (is_ok (vc_get_qc_by_id (s_votes s) (s_height s) (v_round (sv_vote v)) (v_type (sv_vote v)))) eqn:Eq.
  - left. unfold ret in Hr. injection Hr as <- <- _. split; [|done]. unfold has_qc. destruct (vc_get_qc_by_id _ _ _ _); [by eexists|done..].
  - right. rewrite N.ltb_irrefl in Hr. unfold bind at 1, modify in Hr. fold (with_vote v s) in Hr. fold (tally e (v_type (sv_vote v))) in Hr.
    destruct (tally _ _ _) as [[s1 o1] r1]. injection Hr as <- <- _. by exists r1.
Qed.
Lemma own_step e i v s s' o r :
  react lc tenc e i s = (s', o, r) -> AOwnVote v ∈ o ->
  v_height (sv_vote v) = s_height s /\ v_round (sv_vote v) = s_round s /\ sv_voter v = s_addr s /\ s_power s = true /\
  (exists ev, i = IEvent ev) /\ (forall v', AOwnVote v' ∈ o -> v' = v) /\
  exists o1 o2 r', o = o1 ++ o2 /\ tally e (v_type (sv_vote v)) (with_vote v s) = (s', o2, r').
Proof.
  clear tdec spill cr. intros Hr Hin.
  assert (forall (o : list (action T)), Forall (fun a => vote_of a = None) o -> forall v, AOwnVote v ∉ o) as Hno.
  { intros o1 Hf v0 Hx. rewrite Forall_forall in Hf. by apply Hf in Hx. }
  assert ((forall ev, i = IEvent ev -> vote_event ev = None) -> False) as Hq.
  { intros Hi. apply (novote_react _ _ e i Hi) in Hr. by eapply Hno in Hr. }
  destruct i as [m|ev|rs|m]; try (exfalso; apply Hq; by intros).
  assert (forall t hash lr s' o r, handle_vote_event e hash t lr s = (s', o, r) -> AOwnVote v ∈ o ->
    v_height (sv_vote v) = s_height s /\ v_round (sv_vote v) = s_round s /\ sv_voter v = s_addr s /\ (forall v', AOwnVote v' ∈ o -> v' = v) /\
    exists o1 o2 r', o = o1 ++ o2 /\ tally e (v_type (sv_vote v)) (with_vote v s) = (s', o2, r')) as Hv.
  { clear Hr Hin. intros t hash lr s1 o1 r1 Hx Hin.
    apply vote_event_inv in Hx as [(-> & -> & _)|(sig & lk & _ & _ & [(_ & -> & -> & _)|(_ & o2 & Hx)])].
    - by apply elem_of_nil in Hin.
    - by apply elem_of_list_singleton in Hin.
    - destruct (s_leader s) eqn:El; destruct Hx as [-> Hx]; pose proof Hx as Hx'; apply novote_vp in Hx'; apply elem_of_cons in Hin as [?|[Hin|Hin]%elem_of_cons]; try done.
      2-3: by eapply Hno in Hx'.
      injection Hin as ->. split_and!; try done.
      { intros v' [?|[?|Hin]%elem_of_cons]%elem_of_cons; [done|congruence|by eapply Hno in Hin]. }
      eexists [_; _], o2, r1. split; [done|].
      unfold vote_process, get in Hx. change (s_leader (with_vote (own_vote sig t hash s) s)) with (s_leader s) in Hx. rewrite El in Hx. cbn [negb] in Hx.
      exact Hx. }
  assert (s_power s = true) as Hp.
  { destruct (s_power s) eqn:Hp; [done|]. exfalso. unfold react, on_event, get in Hr. rewrite Hp in Hr.
    destruct (s_stopped s); unfold ret in Hr; simpl in Hr; injection Hr as _ <- _; by apply elem_of_nil in Hin. }
  destruct ev as [h rd lr lp from iv cf|h rd hash lr|h rd hash lr|hash|h rd lr|]; try (exfalso; apply Hq; by intros ? [= <-]).
  all: eapply react_core in Hr; [|reflexivity]; destruct Hr as [(_ & _ & -> & _)|(_ & r' & Hx & _)]; [by apply elem_of_nil in Hin|].
  all: destruct (Hv _ _ _ _ _ _ Hx Hin) as (? & ? & ? & ? & ?); split_and!; try done; by eexists.
Qed.

(** ** Who voted *)
(** Every held vote for the current height and every own vote is by a validator of [l]. *)
Definition voters_in (l : list vnode) (s : st T) : Prop :=
  forall r t a v, fvote s (s_height s) r t a = Some v -> a ∈ n_addr <$> l.
(** [l] was in force whenever the instance did something at height [h]. *)
Definition in_force_at (l : list vnode) (h : N) (log : list (nlog T)) : Prop :=
  forall e i s o r, NState e i s o r ∈ log -> s_height s = h -> s_auth s = auth_update l.
Lemma fvote_addr s ops h r t a v : s_votes s = vops ops -> fvote s h r t a = Some v ->
  sv_voter v = a /\ v_height (sv_vote v) = h /\ v_round (sv_vote v) = r /\ v_type (sv_vote v) = t.
Proof. clear lc tenc tdec spill cr. intros E Hv. unfold fvote in Hv. rewrite E, vops_first_vote in Hv. apply first_vote_at in Hv as (? & ? & ? & ?). done. Qed.
(** A new held vote is the one received, from a validator, or an own one. *)
Lemma new_voter l e i s s' o r ops :
  s_votes s = vops ops -> react lc tenc e i s = (s', o, r) -> s_auth s = auth_update l ->
  forall h rd t a v, fvote s' h rd t a = Some v -> fvote s h rd t a = Some v \/ a ∈ n_addr <$> l \/ a = s_addr s.
Proof.
  clear tdec spill cr. intros Ev Hr Ea h rd t a v Hv.
  pose proof (votesR_react lc tenc e i _ _ _ _ Hr) as (vo & V1 & V2).
  assert (s_votes s' = vops (ops ++ vo)) as Ev' by (unfold vops in *; by rewrite V1, Ev, foldl_app).
  pose proof (fvote_addr _ _ _ _ _ _ _ Ev' Hv) as (<- & _).
  pose proof Hv as Hv0. unfold fvote in Hv. rewrite Ev', vops_first_vote in Hv. apply first_vote_app in Hv as [Hv|Hv].
  { left. unfold fvote. by rewrite Ev, vops_first_vote. }
  apply (proj1 (Forall_forall _ _) V2) in Hv as [->|Hv].
  2: { right. right. by eapply own_react. }
  destruct (auth_contains (s_auth s) (sv_voter v)) eqn:Ec.
  { right. left. rewrite Ea in Ec. by apply auth_contains_spec. }
  left. eapply react_core in Hr; [|reflexivity]. destruct Hr as [(_ & -> & _)|(_ & r' & Hr & _)]; [done|].
  unfold handle_signed_vote, get in Hr. cbv zeta in Hr. destruct (filter_message _ _ _); [unfold ret in Hr; injection Hr as -> _ _; done|].
  unfold bind at 1, verify_address, get in Hr. rewrite Ec in Hr. unfold fail in Hr. injection Hr as -> _ _. done.
Qed.

(** ** Along a history *)
Lemma start_votes b cfg n log v : nstart lc tdec spill b cfg = (n, log) -> AOwnVote v ∉ actions log.
Proof.
  clear tenc cr. unfold nstart. destruct (on_start _ _ _ _ _ _) as [[s o] r] eqn:E. intros [= <- <-].
  apply start_novote in E. unfold actions. simpl. rewrite app_nil_r. intros Hin. rewrite Forall_forall in E. by apply E in Hin.
Qed.
Lemma noderun_voters b cfg log n l :
  noderun b cfg log n -> s_power (nd_st n) = true -> (forall w, ASave w false ∉ actions log) ->
  in_force_at l (s_height (nd_st n)) log -> b_addr b ∈ n_addr <$> l -> voters_in l (nd_st n).
Proof.
  intros Hr Hpw Hsv Hf Hb. induction Hr as [n log Hs|log n l0 n' log' Hr IH Hs].
  - intros r t a v Hv. assert (run_inv tdec spill (boot_at b) (inputs log) (actions log) (nd_st n)) as [(vo & Evo & Fvo) _ _ _ _ _].
    { eapply run_run_inv, (noderun_run lc tenc tdec spill cr). by constructor. }
    unfold fvote in Hv. rewrite Evo, vops_first_vote in Hv. apply first_vote_in in Hv.
    apply (proj1 (Forall_forall _ _) Fvo) in Hv as [Hv|Hv].
    + unfold nstart in Hs. destruct (on_start _ _ _ _ _ _) as [[s o] r0]. injection Hs as <- <-. destruct Hv as [? Hv]. by apply elem_of_nil in Hv.
    + by apply (start_votes _ _ _ _ _ Hs) in Hv.
  - assert (forall w, ASave w false ∉ actions log) as Hsv0 by (intros w Hw; apply (Hsv w); rewrite actions_app; set_solver).
    assert (forall w, ASave w false ∉ actions log') as Hsv1 by (intros w Hw; apply (Hsv w); rewrite actions_app; set_solver).
    assert (s_height (nd_st n') = s_height (nd_st n) -> in_force_at l (s_height (nd_st n)) log) as Hf0.
    { intros E e i s o r Hin Hh. eapply Hf; [apply elem_of_app; by left|congruence]. }
    assert (run_inv tdec spill (boot_at b) (inputs log) (actions log) (nd_st n)) as [(vo & Evo & Fvo) _ _ _ _ Had].
    { by eapply run_run_inv, (noderun_run lc tenc tdec spill cr). }
    apply nstep_cases in Hs as [(e & i & s & o & r & Es & Hrr & Es' & Hpop & ->)|(Es & _)].
    2: { unfold voters_in in *. rewrite Es in *. apply IH; auto. }
    unfold voters_in in *. rewrite Es' in *. set (e0 := env_at n e) in *.
    pose proof Hrr as Hrr0.
    apply react_shape in Hrr as [m -> -> _|_ (S1 & S2 & S3 & S4) _|stt s1 o1 o2 r1 Hg Eo (Hn & _ & Eh & Epw) Ev Epp Ecc Hadp].
    { intros. eapply IH; eauto. }
    + intros rd t a v Hv. rewrite S3 in Hv. rewrite S4 in Hpw. specialize (IH Hpw Hsv0 (Hf0 S3)).
      eapply (new_voter l) in Hv as [Hv|[Hv|Hv]]; [by eapply IH|done| |exact Evo|exact Hrr0|].
      * rewrite Hv, Had. done.
      * eapply Hf; [apply elem_of_app; right; by apply elem_of_list_singleton|done].
    + apply goto_inv in Hg as [(_ & -> & _)|[(_ & Hic & -> & _)|[(_ & _ & _ & Eo2 & _)|(_ & _ & -> & _)]]].
      * intros rd t a v. unfold fvote. rewrite Ev, Eh. apply IH; [congruence|done|auto].
      * simpl in Hpw. congruence.
      * exfalso. eapply Hsv1. unfold actions. simpl. rewrite app_nil_r, Eo, Eo2. apply elem_of_app. right. by apply elem_of_list_singleton.
      * destruct (moved_full_none stt s1) as (Hvn & _ & _ & Hhh). intros rd t a v. unfold fvote. rewrite Hhh.
        unfold vs_of, rnd, vc_round. rewrite Hvn. simpl. destruct t; simpl; by rewrite lookup_empty.
Qed.
Lemma since b cfg log n e i s o r :
  noderun b cfg log n -> NState e i s o r ∈ log -> exists s' o', react lc tenc e i s = (s', o, r) /\ fwdR s' o' (nd_st n).
Proof.
  induction 1 as [n log Hs|log n l0 n' log' Hr IH Hs]; intros Hin.
  - unfold nstart in Hs. destruct (on_start _ _ _ _ _ _) as [[s0 o0] r0]. injection Hs as <- <-. by apply elem_of_list_singleton in Hin.
  - apply elem_of_app in Hin as [Hin|Hin].
    + destruct (IH Hin) as (s' & o' & H1 & H2). apply nstep_cases in Hs as [(e1 & i1 & s1 & o1 & r1 & Es & Hrr & -> & _)|(-> & _)]; [|by exists s', o'].
      exists s', (o' ++ o1). split; [done|]. eapply (comp_app _ fwd_comp); [exact H2|]. by eapply fwd_react.
    + apply nstep_cases in Hs as [(e1 & i1 & s1 & o1 & r1 & Es & Hrr & -> & _ & ->)|(_ & _ & Hi & _)].
      * apply elem_of_list_singleton in Hin. injection Hin as -> -> -> -> ->. exists s1, []. split; [done|apply fwd_comp].
      * exfalso. assert ((e, i) ∈ inputs log') as Hx; [|rewrite Hi in Hx; by apply elem_of_nil in Hx].
        unfold inputs. apply elem_of_list_omap. by exists (NState e i s o r).
Qed.
Lemma action_entry b cfg log n v : noderun b cfg log n -> AOwnVote v ∈ actions log -> exists e i s o r, NState e i s o r ∈ log /\ AOwnVote v ∈ o.
Proof.
  induction 1 as [n log Hs|log n l0 n' log' Hr IH Hs]; intros Hin; [by apply (start_votes _ _ _ _ _ Hs) in Hin|].
  rewrite actions_app in Hin. apply elem_of_app in Hin as [Hin|Hin].
  - destruct (IH Hin) as (e & i & s & o & r & H1 & H2). exists e, i, s, o, r. split; [apply elem_of_app; by left|done].
  - apply nstep_cases in Hs as [(e1 & i1 & s1 & o1 & r1 & Es & Hrr & _ & _ & ->)|(_ & _ & _ & Hx)]; [|rewrite Hx in Hin; by apply elem_of_nil in Hin].
    unfold actions in Hin. simpl in Hin. rewrite app_nil_r in Hin. do 5 eexists. split; [|exact Hin]. apply elem_of_app. right. by apply elem_of_list_singleton.
Qed.
(** ** Specification *)
(** A vote of [a] that says [vt] was cast in time: it came to the state module while the instance
    was at its height and had not passed its round, or it is the instance's own. *)
Definition cast_in_time (log : list (nlog T)) (a : bytes) (vt : vote) : Prop :=
  exists v, sv_voter v = a /\ sv_vote v = vt /\
    ((exists e s o r, NState e (IMsg (MVote v)) s o r ∈ log /\ timely v s) \/ AOwnVote v ∈ actions log).
(** The vote came to the state module, or it is the instance's own. *)
Definition seen (log : list (nlog T)) (v : svote) : Prop :=
  (exists e s o r, NState e (IMsg (MVote v)) s o r ∈ log) \/ AOwnVote v ∈ actions log.

Lemma fvote_with v (s : st T) : exists w, fvote (with_vote v s) (v_height (sv_vote v)) (v_round (sv_vote v)) (v_type (sv_vote v)) (sv_voter v) = Some w /\
  (w = v \/ fvote s (v_height (sv_vote v)) (v_round (sv_vote v)) (v_type (sv_vote v)) (sv_voter v) = Some w).
Proof.
  clear lc tenc tdec spill cr. unfold fvote. change (s_votes (with_vote v s)) with (vop_run (s_votes s) (VVote v)). rewrite vs_of_step.
  rewrite !N.eqb_refl, bool_decide_eq_true_2 by done. cbn [andb]. rewrite votes_insert_addr.
  destruct (vs_by_addr _ !! _) as [w|]; [exists w; by auto|]. rewrite decide_True by done. exists v. auto.
Qed.
Lemma fvote_seen b cfg log n h r t a v : noderun b cfg log n -> fvote (nd_st n) h r t a = Some v -> seen log v.
Proof.
  intros Hr Hv. pose proof (noderun_run _ _ _ _ _ _ _ _ _ Hr) as Hrun. apply run_run_inv in Hrun as [(vo & Evo & Fvo) _ _ _ _ _].
  unfold fvote in Hv. rewrite Evo, vops_first_vote in Hv. apply first_vote_in in Hv.
  apply (proj1 (Forall_forall _ _) Fvo) in Hv as [[e Hv]|Hv]; [left|by right].
  unfold inputs in Hv. apply elem_of_list_omap in Hv as (x & Hx & E). destruct x as [| |e0 i s o r0| | | | | |]; try done. injection E as -> ->. eauto.
Qed.
Lemma held_since b cfg log n l a vt :
  noderun b cfg log n -> s_power (nd_st n) = true -> in_force_at l (s_height (nd_st n)) log -> a ∈ n_addr <$> l ->
  v_height vt = s_height (nd_st n) -> v_height vt + FUTURE_HEIGHT_GAP < 2 ^ 64 -> v_round vt + FUTURE_ROUND_GAP < 2 ^ 64 ->
  cast_in_time log a vt ->
  has_qc (nd_st n) (v_height vt) (v_round vt) (v_type vt) \/ exists w, fvote (nd_st n) (v_height vt) (v_round vt) (v_type vt) a = Some w.
Proof.
  intros Hr Hp Hf Ha Hh H1 H2 (v & <- & <- & Hc).
  assert (forall e i s o r s' o2 r', NState e i s o r ∈ log -> react lc tenc e i s = (s', o, r) -> v_height (sv_vote v) = s_height s -> tally e (v_type (sv_vote v)) (with_vote v s) = (s', o2, r') ->
    exists w, fvote (nd_st n) (v_height (sv_vote v)) (v_round (sv_vote v)) (v_type (sv_vote v)) (sv_voter v) = Some w) as Hstored.
  { intros e i s o r s' o2 r' Hin Hre Eh Ht. destruct (since _ _ _ _ _ _ _ _ _ Hr Hin) as (s1 & o1 & Hre' & [F1 F2]). rewrite Hre in Hre'. injection Hre' as <-.
    apply fwd_tally in Ht as [G1 G2]. simpl in G1, G2.
    destruct (F2 ltac:(lia)) as (_ & F3 & _). destruct (G2 ltac:(lia)) as (_ & G3 & _).
    destruct (fvote_with v s) as (w & Hw & _). exists w. auto. }
  destruct Hc as [(e & s & o & r & Hin & Ht)|Hown].
  - destruct (since _ _ _ _ _ _ _ _ _ Hr Hin) as (s1 & o1 & Hre & [F1 F2]). pose proof (fwd_react _ _ _ _ _ _ Hre) as [G1 G2]. pose proof Ht as (Eh & Er1 & Er2).
    destruct (F2 ltac:(lia)) as (F3 & F4 & F5). destruct (G2 ltac:(lia)) as (G3 & _).
    destruct (vote_step l _ _ _ _ _ _ Hre) as [(Hq & -> & _)|(r' & Htl)]; [congruence|eapply Hf; [exact Hin|congruence]|done|done|split; lia| |].
    + left. rewrite Eh. by apply F5.
    + right. by eapply Hstored.
  - right. destruct (action_entry _ _ _ _ _ Hr Hown) as (e & i & s & o & r & Hin & Ho).
    destruct (since _ _ _ _ _ _ _ _ _ Hr Hin) as (s1 & o1 & Hre & _). destruct (own_step _ _ _ _ _ _ _ Hre Ho) as (E1 & _ & _ & _ & _ & _ & o3 & o4 & r' & _ & Ht).
    by eapply Hstored.
Qed.

(** C54. At height [h] and round [r], when a vote of type [t] of a validator or of the instance itself
    is counted, and validators holding more than two thirds of the weight of the list [l] in force
    cast votes of type [t] for [x] in time and no other votes of that height, round and type, then
    the instance broadcasts a certificate for [x] and, if the check of [x] is done, hands it to the
    state machine; or it had a certificate of that height, round and type before. *)
Theorem C54_quorums_are_certified :
  forall b cfg log n l1 e i s o r l2 l t x Q,
    noderun b cfg log n -> log = (l1 ++ [NState e i s o r]) ++ l2 ->
    let now := l1 ++ [NState e i s o r] in
    (forall w, ASave w false ∉ actions now) ->
    in_force_at l (s_height s) now -> distinct l -> total_weight l < 2 ^ 32 -> b_addr b ∈ n_addr <$> l ->
    s_power s = true -> far_from_end s ->
    (exists v, v_type (sv_vote v) = t /\
       (i = IMsg (MVote v) /\ v_height (sv_vote v) = s_height s /\ v_round (sv_vote v) = s_round s /\ sv_voter v ∈ n_addr <$> l \/
        AOwnVote v ∈ o)) ->
    3 * weight_of Q l > 2 * total_weight l ->
    (forall a, a ∈ Q -> a ∈ n_addr <$> l /\ cast_in_time now a (mkVote (s_height s) (s_round s) t x) /\
       forall v, seen now v -> sv_voter v = a -> v_height (sv_vote v) = s_height s -> v_round (sv_vote v) = s_round s ->
         v_type (sv_vote v) = t -> v_hash (sv_vote v) = x) ->
    (forall sigs who, is_Some (cr_aggregate (e_crypto e) sigs who)) ->
    (exists q, from_qc tdec spill b l1 (s_height s) q /\
       (av_height q, av_round q, av_type q) = (s_height s, s_round s, t)) \/
    (exists q, ABroadcast (MAgg q) ∈ o /\ to_vote q = mkVote (s_height s) (s_round s) t x /\
       (s_full s !! x = Some true -> ATrigger (qc_trigger q) ∈ o)).
Proof.
  intros b cfg log n l1 e i s o r l2 l t x Q Hrun Hl now Hsv Hf Hd Htot Hb Hp Hfar Htr Hw HQ Hagg.
  rewrite <-app_assoc in Hl. simpl in Hl.
  assert (l1 <> []) as Hne.
  { destruct (noderun_first _ _ _ _ _ _ _ _ _ Hrun) as (o0 & r0 & tl & E). intros ->. by rewrite E in Hl. }
  destruct (noderun_split _ _ _ _ _ _ _ _ _ _ _ _ Hrun Hl Hne) as (n1 & lb & n2 & Hr1 & Hst).
  pose proof (noderun_nostop _ _ _ _ _ _ _ _ _ Hr1) as (_ & _ & _ & _ & _ & _ & Hson & _).
  pose proof (noderun_step _ _ _ _ _ _ _ _ _ _ _ _ Hr1 Hst) as Hr2.
  apply nstep_cases in Hst as [(e0 & i0 & s' & o0 & r0 & _ & Hre & Es' & _ & E)|(_ & _ & Hi & _)]; [|done].
  injection E as Ee <- Es0 <- <-. subst e s. set (s := nd_st n1) in *. set (e := env_at n1 e0) in *.
  assert (forall t, e_trigger e t = true) as Htrig by (intros; unfold e, env_at; simpl; exact Hson).
  assert (forall w, ASave w false ∉ actions l1) as Hsv1 by (intros w Hin; apply (Hsv w); unfold now; rewrite actions_app; set_solver).
  assert (in_force_at l (s_height s) l1) as Hf1 by (intros e1 i1 s1 o1 r1 Hin; eapply Hf; apply elem_of_app; by left).
  assert (s_auth s = auth_update l) as Ea by (eapply Hf; [apply elem_of_app; right; by apply elem_of_list_singleton|done]).
  pose proof (noderun_voters _ _ _ _ l Hr1 Hp Hsv1 Hf1 Hb) as Hvot.
  pose proof (noderun_held _ _ _ _ _ _ _ _ _ Hr1 Hp Hsv1) as [_ Hqcs _ _].
  pose proof (noderun_run _ _ _ _ _ _ _ _ _ Hr1) as Hrun1. apply run_run_inv in Hrun1 as [(vo & Evo & _) _ _ _ _ Had].
  assert (has_qc s (s_height s) (s_round s) t -> exists q, from_qc tdec spill b l1 (s_height s) q /\
       (av_height q, av_round q, av_type q) = (s_height s, s_round s, t)) as Hold.
  { intros [q Hq]. exists q. split; [apply Hqcs; left; by exists (s_round s), t|].
    fold s in Evo. rewrite Evo, get_qc_rnd, vops_qc_id in Hq. destruct (last_qc _ _ _) as [q'|] eqn:E; [|done]. injection Hq as ->.
    apply last_qc_sel in E as (E0 & [E1 E2]%andb_true_iff & _). apply N.eqb_eq in E1. apply bool_decide_eq_true in E2. by rewrite E0, E1, E2. }
  (* the vote that is counted *)
  assert (exists v o1 o2 r', v_type (sv_vote v) = t /\ v_height (sv_vote v) = s_height s /\ v_round (sv_vote v) = s_round s /\ sv_voter v ∈ n_addr <$> l /\
    seen now v /\ o = o1 ++ o2 /\ (forall v', (i = IMsg (MVote v') \/ AOwnVote v' ∈ o) -> v' = v) /\
    ((has_qc s (s_height s) (s_round s) t) \/ tally e t (with_vote v s) = (s', o2, r'))) as (v & o1 & o2 & r' & Et & Eh & Er & Hv & Hsv' & Eo & Huniq & Htal).
  { destruct Htr as (v & Et & [(-> & Eh & Er & Hv)|Ho]).
    - destruct (vote_step l _ _ _ _ _ _ Hre Hp Ea Hv) as [(Hq & Es & Eo)|(r' & Htl)]; [split; [done|lia]|done| |].
      all: exists v, [], o. all: assert (forall v', AOwnVote v' ∉ o) as Hno by (intros v' Hin; by destruct (own_step _ _ _ _ _ _ _ Hre Hin) as (_ & _ & _ & _ & [? ?] & _)).
      all: assert (seen now v) as Hseen by (left; do 4 eexists; apply elem_of_app; right; by apply elem_of_list_singleton).
      all: assert (forall v', IMsg (T:=T) (MVote v) = IMsg (MVote v') \/ AOwnVote v' ∈ o -> v' = v) as Hu by (intros v' [E|Hin]; [by injection E|by apply Hno in Hin]).
      + exists (Ok tt). split_and!; try done. left. by rewrite <-Er, <-Et.
      + exists r'. split_and!; try done. right. by rewrite <-Et.
    - destruct (own_step _ _ _ _ _ _ _ Hre Ho) as (E1 & E2 & E3 & _ & [ev ->] & Hu & oa & ob & r' & Eo & Htl).
      exists v, oa, ob, r'. split_and!; try done.
      + rewrite E3. fold s in Had. rewrite Had. done.
      + right. unfold now. rewrite actions_app. apply elem_of_app. right. unfold actions. simpl. by rewrite app_nil_r.
      + intros v' [?|?]; [done|auto].
      + right. by rewrite <-Et. }
  destruct Htal as [Hq|Htal]; [left; by apply Hold|].
  destruct (decide (is_Some (match vc_get_qc_by_id (s_votes s) (s_height s) (s_round s) t with Ok q => Some q | _ => None end))) as [Hq|Hnq].
  { left. apply Hold. unfold has_qc. destruct (vc_get_qc_by_id _ _ _ _) as [q| |]; [by exists q|by destruct Hq..]. }
  right. set (s1 := with_vote v s) in *.
  assert (s_votes s1 = vops (vo ++ [VVote v])) as Ev1 by (rewrite vops_snoc; fold s in Evo; rewrite <-Evo; done).
  assert (forall a w, fvote s (s_height s) (s_round s) t a = Some w -> seen now w) as Hseen.
  { intros a w Hx. apply (fvote_seen _ _ _ _ _ _ _ _ _ Hr1) in Hx as [(e1 & s2 & o3 & r3 & Hin)|Hin]; [left|right].
    - exists e1, s2, o3, r3. apply elem_of_app. by left.
    - unfold now. rewrite actions_app. apply elem_of_app. by left. }
  assert (forall a w, fvote s1 (s_height s) (s_round s) t a = Some w -> a ∈ n_addr <$> l /\ seen now w) as Hin1.
  { intros a w Hx. unfold fvote, s1 in Hx. change (s_votes (with_vote v s)) with (vop_run (s_votes s) (VVote v)) in Hx. rewrite vs_of_step in Hx.
    destruct (_ && _); [rewrite votes_insert_addr in Hx|by split; [eapply Hvot|eapply Hseen]].
    destruct (vs_by_addr _ !! a) as [w'|] eqn:E; [injection Hx as ->; by split; [eapply Hvot|eapply Hseen]|].
    destruct (decide _) as [<-|]; [|done]. by injection Hx as <-. }
  assert (forall a, a ∈ Q -> exists w, fvote s1 (s_height s) (s_round s) t a = Some w) as HQ1.
  { intros a Ha. destruct (HQ a Ha) as (Hal & (v' & Ev' & Es1 & Hc) & _).
    assert (sv_voter v' = a -> v' = v -> exists w, fvote s1 (s_height s) (s_round s) t a = Some w) as Hthis.
    { intros <- ->. destruct (fvote_with v s) as (w & Hw' & _). rewrite Eh, Er, Et in Hw'. by exists w. }
    assert (cast_in_time l1 a (mkVote (s_height s) (s_round s) t x) -> exists w, fvote s1 (s_height s) (s_round s) t a = Some w) as Hbefore.
    { intros Hc'. destruct (held_since _ _ _ _ l a (mkVote (s_height s) (s_round s) t x) Hr1 Hp Hf1 Hal eq_refl (proj1 Hfar) (proj2 Hfar) Hc') as [Hq|[w Hw']].
      - exfalso. apply Hnq. simpl in Hq. destruct Hq as [q Hq]. fold s in Hq. rewrite Hq. by eexists.
      - exists w. simpl in Hw'. eapply (fvote_op s s1 (VVote v)); [done|done|exact Hw']. }
    destruct Hc as [(e1 & s2 & o3 & r3 & Hin & Htm)|Hin].
    - apply elem_of_app in Hin as [Hin|Hin].
      + apply Hbefore. exists v'. split_and!; try done. left. eauto 10.
      + apply elem_of_list_singleton in Hin. injection Hin as -> <- -> -> ->. apply Hthis; [done|]. apply Huniq. by left.
    - unfold now in Hin. rewrite actions_app in Hin. apply elem_of_app in Hin as [Hin|Hin].
      + apply Hbefore. exists v'. split_and!; try done. by right.
      + unfold actions in Hin. simpl in Hin. rewrite app_nil_r in Hin. apply Hthis; [done|]. apply Huniq. by right. }
  assert (counting_vote (s_auth s1) (s_votes s1) (s_height s1) (s_round s1) t = Ok (Some x)) as Hcount.
  { rewrite Ev1. change (s_auth s1) with (s_auth s). change (s_height s1) with (s_height s). change (s_round s1) with (s_round s). rewrite Ea.
    apply (counts_quorum _ _ _ _ _ _ Q); try done.
    - intros a w Hx. eapply Hin1. unfold fvote. rewrite Ev1, vops_first_vote. exact Hx.
    - intros a Ha. destruct (HQ1 a Ha) as (w & Hx). exists w. pose proof Hx as Hx'. unfold fvote in Hx'. rewrite Ev1, vops_first_vote in Hx'. split; [done|].
      destruct (HQ a Ha) as (_ & _ & Hhon). destruct (fvote_addr _ _ _ _ _ _ _ Ev1 Hx) as (F1 & F2 & F3 & F4). apply Hhon; try done. by eapply Hin1. }
  unfold tally, bind at 1, count_now, get at 1, lift in Htal. rewrite Hcount in Htal.
  assert (exists lv, vc_get_votes (s_votes s1) (s_height s1) (s_round s1) t x = Ok lv) as [lv Hlv].
  { destruct (C10_first_vote_per_validator (vo ++ [VVote v]) (s_height s1) (s_round s1) t) as [Hg _]. specialize (Hg x). rewrite Ev1.
    destruct (vc_get_votes _ _ _ _ _) as [lv| |]; [by exists lv|..]; exfalso.
    all: rewrite Ev1 in Hcount; change (s_auth s1) with (s_auth s) in Hcount; rewrite Ea in Hcount; apply counted in Hcount as (as_ & _ & Has & _ & Hww).
    all: destruct as_ as [|a as_]; [|destruct (proj1 (Has a)) as (w & F1 & F2); [by left|by eapply Hg]].
    all: specialize (Hww Hd Htot); assert (weight_of [] l <= sumN (fun _ => 0) l) as E
      by (apply sumN_le; intros y _; by rewrite bool_decide_eq_false_2 by apply not_elem_of_nil).
    all: assert (forall l : list vnode, sumN (fun _ => 0) l = 0) as E0 by (clear; induction l as [|? ? IH]; [done|exact IH]); rewrite E0 in E; lia. }
  destruct (Hagg (sv_sig <$> ksort sv_voter lv) (sv_voter <$> ksort sv_voter lv)) as [sig Hsig].
  rewrite (publish_fwd e x t s1 lv sig Hlv Hsig Htrig) in Htal. injection Htal as _ <- _.
  exists (made_qc s1 x t lv sig). split_and!.
  - rewrite Eo. set_solver.
  - done.
  - intros Hfull. rewrite (full_true s1 x Hfull) in Eo. rewrite Eo. set_solver.
Qed.
End Q.
