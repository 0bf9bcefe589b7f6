(** * P_Leader: votes go to the leader of their round (C58). *)
From Verif Require Export P_Cause P_Decide.
Set Default Proof Using "Type".

(** ** Specification *)
(** Where a vote goes: over the network to an address, or into the own collection. *)
Definition cast_to {T} (own : bytes) (a : action T) : option (bytes * svote) :=
  match a with
  | ATransmit d (MVote v) => Some (d, v)
  | AOwnVote v => Some (own, v)
  | _ => None
  end.
(** The instance entered round [rd] of height [h] at some time, and if it wrote its record then,
    [d] is the leader of that height and round under the validator list in force at that moment. *)
Definition entered_under {T} (lc : lcfg) (log : list (nlog T)) (h rd : N) (d : bytes) : Prop :=
  exists e lr lp from iv cf s o r, NState e (IEvent (EvNewRound h rd lr lp from iv cf)) s o r ∈ log /\ s_height s = h /\
    ((forall w, ASave w true ∉ o) \/ (forall p, get_proposer lc (s_auth s) h rd = Ok p -> d = p)).
(** The instance started in round [rd] of height [h]: from its record, and then [d] is the leader of
    that height and round under the validator list of the start; or without one. *)
Definition started_in {T} (lc : lcfg) (b : boot T) (w : option (walinfo T)) (h rd : N) (d : bytes) : Prop :=
  match w with
  | Some w => h = wi_height w /\ rd = wi_round w /\ get_proposer lc (auth_update (b_vals b)) h rd = Ok d
  | None => h = b_height b /\ rd = 0 /\ d = []
  end.

Section L.
Context {T : Type} `{EqDecision T}.
Context (lc : lcfg) (tenc : T -> bytes) (tdec : bytes -> option T) (spill : bool) (cr : crypto).
Local Notation noderun := (noderun lc tenc tdec spill cr).

(** ** The address votes are sent to *)
Definition dest (s : st T) : bytes := if s_leader s then s_addr s else s_laddr s.
Definition ldR (s : st T) (_ : list (action T)) (s' : st T) : Prop :=
  s_leader s' = s_leader s /\ s_laddr s' = s_laddr s /\ s_addr s' = s_addr s.
Lemma ld_comp : comp ldR.
Proof. clear. split; [done|]. intros s1 s2 s3 o1 o2 (A1 & A2 & A3) (B1 & B2 & B3). split_and!; congruence. Qed.
Lemma ld_goto e stt : keeps ldR (goto_new_height (T:=T) e stt).
Proof.
  clear. intros s s' o r Hg.
  apply goto_inv in Hg as [(_ & -> & _)|[(_ & _ & -> & _)|[(_ & _ & -> & _)|(_ & _ & -> & _)]]]; try done.
  unfold moved_full. by destruct (st_interval stt).
Qed.
Local Hint Resolve ld_goto : keepsdb.
Lemma ld_prop e sp : keeps ldR (handle_signed_proposal (T:=T) lc e sp).
Proof. clear tenc tdec spill cr. keeps_go ld_comp; done. Qed.
Local Hint Resolve ld_prop : keepsdb.
Lemma ld_react e i : (forall h rd lr lp from iv cf, i <> IEvent (EvNewRound h rd lr lp from iv cf)) -> keeps ldR (react lc tenc e i).
Proof.
  clear tdec spill cr. intros Hi. apply (keeps_react _ _ _ ld_comp).
  - intros m _. apply (keeps_on_msg _ _ ld_comp); [done|]. keeps_go ld_comp; done.
  - intros m _. keeps_go ld_comp; done.
  - intros m _. keeps_go ld_comp; done.
  - intros ev ->. destruct ev; [by edestruct Hi|..]; keeps_go ld_comp; done.
Qed.
Lemma ld_dest s o s' : ldR s o s' -> dest s' = dest s.
Proof. clear. intros (E1 & E2 & E3). unfold dest. by rewrite E1, E2, E3. Qed.
Lemma led_dest p (s : st T) : dest (led p s) = p.
Proof. clear. unfold dest, led. simpl. case_bool_decide; [done|done]. Qed.
Lemma new_round_dest e h rd lr lp from iv cf s s' o r :
  react lc tenc e (IEvent (EvNewRound h rd lr lp from iv cf)) s = (s', o, r) ->
  (forall w, ASave w true ∉ o) \/ (forall p, get_proposer lc (s_auth s) (s_height s) rd = Ok p -> dest s' = p).
Proof.
  clear tdec spill cr. intros Hr. eapply react_core in Hr; [|reflexivity]. destruct Hr as [(_ & _ & -> & _)|(_ & r' & Hx & _)].
  { left. by intros w ?%elem_of_nil. }
  apply new_round_inv in Hx as (o1 & -> & Hx).
  assert (forall w, ASave w true ∉ view_changes (T:=T) rd from s) as Hv.
  { intros w. unfold view_changes. destruct (_ =? _); [apply not_elem_of_nil|by intros ?%elem_of_list_singleton]. }
  destruct Hx as [(-> & _)|(uf & l & _ & _ & _ & [(_ & -> & _)|(_ & o2 & -> & Hp)])].
  - left. intros w [?|?%elem_of_nil]%elem_of_app; [by eapply Hv|done].
  - left. intros w [?|?%elem_of_list_singleton]%elem_of_app; [by eapply Hv|done].
  - right. intros p Hg. apply propose_inv in Hp. change (get_proposer lc (s_auth (entered rd uf s)) (s_height (entered rd uf s)) (s_round (entered rd uf s))) with (get_proposer lc (s_auth s) (s_height s) rd) in Hp.
    rewrite Hg in Hp. destruct (decide _).
    + destruct Hp as [(-> & _)|(b & x & pl & om & _ & -> & _)]; [apply led_dest|].
      rewrite (ld_dest (led p (entered rd uf s)) []); [apply led_dest|]. unfold with_block. by destruct (s_blocks _ !! x).
    + destruct (pc_get _ _ _); [|by destruct Hp as (-> & _); apply led_dest..].
      apply ld_prop, ld_dest in Hp. rewrite Hp. apply led_dest.
Qed.
Lemma vote_dest ops e i s s' o r a d v :
  s_votes s = vops ops -> s_stopped s = false -> react lc tenc e i s = (s', o, r) -> a ∈ o -> cast_to (s_addr s) a = Some (d, v) -> d = dest s.
Proof.
  clear tdec spill cr. intros Ev Hst Hr Ha Hc.
  assert (vote_of a = Some (sv_vote v)) as Hv.
  { unfold cast_to in Hc. destruct a; try discriminate Hc; [|by injection Hc as _ ->]. destruct m; try discriminate Hc. by injection Hc as _ ->. }
  destruct (vote_input _ _ _ _ _ _ _ _ _ _ _ Ev Hst Hr Ha Hv) as (ev & h & rd & Hp & -> & He & _).
  destruct (vote_react _ _ _ _ _ _ _ _ _ _ _ _ _ Ev Hst He Hr) as [Hn|(_ & w & a' & o2 & Eo & _ & Hv' & Hn)].
  { rewrite Forall_forall in Hn. apply Hn in Ha. congruence. }
  rewrite Eo in Ha. apply elem_of_cons in Ha as [->|Ha]; [done|]. apply elem_of_cons in Ha as [->|Ha].
  2: { rewrite Forall_forall in Hn. apply Hn in Ha as [? _]. congruence. }
  clear Hn Hv. destruct (core lc tenc e (IEvent ev)) as [y|] eqn:Ec; [|by destruct ev].
  pose proof (react_core _ _ _ _ _ _ _ _ _ Ec Hr) as [(_ & _ & E & _)|(_ & r' & Hx & _)]; [by rewrite E in Eo|].
  assert (exists x t lr, y = handle_vote_event e x t lr) as (x & t & lr & ->).
  { destruct ev; try discriminate He; simpl in Ec; injection Ec as <-; by eexists _, _, _. }
  apply vote_event_inv in Hx as [(_ & E & _)|(sig & l & _ & _ & [(_ & _ & E & _)|(_ & o3 & Hx)])]; [by rewrite E in Eo|rewrite E in Eo; done|].
  unfold dest. destruct (s_leader s); destruct Hx as [-> _]; injection Eo as _ <- _; simpl in Hc; by injection Hc as <- _.
Qed.

(** ** Which round the state module is in *)
Definition new_round_of (x : nlog T) : option (N * N) :=
  match x with NState _ (IEvent (EvNewRound h r _ _ _ _ _)) _ _ _ => Some (h, r) | _ => None end.
Definition posn (log : list (nlog T)) : option (N * N) := last (omap new_round_of log).
Lemma posn_snoc log x : posn (log ++ [x]) = match new_round_of x with Some p => Some p | None => posn log end.
Proof.
  clear. unfold posn. rewrite omap_app. simpl. destruct (new_round_of x); [by rewrite last_snoc|by rewrite app_nil_r].
Qed.
Definition is_wal (t : trigger) : Prop := t_type t = TWalInfo.
Record linv (b : boot T) (w : option (walinfo T)) (log : list (nlog T)) (n : node T) : Prop := mkLinv {
  li_pos : exists c c', evs_run c (nd_evs n) c' /\ at_smr c' (nd_smr n) /\
    match posn log with
    | Some p => c.1 = p /\ (s_height (nd_st n) = p.1 -> entered_under lc log p.1 p.2 (dest (nd_st n)))
    | None => ph c = 0 \/ started_in lc b w (ph c) (pr c) (dest (nd_st n))
    end;
  li_wal : forall t, t ∈ nd_trig n -> is_wal t -> posn log = None /\
    exists i, t_wal t = Some i /\ started_in lc b w (sb_height i) (sb_round i) (dest (nd_st n)) }.
Lemma entered_app log log' h rd d : entered_under lc log h rd d -> entered_under (T:=T) lc (log ++ log') h rd d.
Proof.
  clear. intros (e & lr & lp & from & iv & cf & s & o & r & Hin & Hs & Hd). do 9 eexists. split; [apply elem_of_app; by left|]. by split.
Qed.
Lemma linv_same b w log n n' x : new_round_of x = None ->
  nd_st n' = nd_st n -> nd_smr n' = nd_smr n -> nd_evs n' = nd_evs n -> (forall t, t ∈ nd_trig n' -> is_wal t -> t ∈ nd_trig n) ->
  linv b w log n -> linv b w (log ++ [x]) n'.
Proof.
  clear. intros Ex E1 E2 E3 E4 [(c & c' & H1 & H2 & H3) H4]. split; rewrite posn_snoc, Ex, E1, ?E2, ?E3.
  - exists c, c'. split_and!; [done..|]. destruct (posn log); [|done]. destruct H3 as [H3 H5]. split; [done|]. intros E. by apply entered_app, H5.
  - intros t Ht Hw. by apply H4; [apply E4|].
Qed.

Lemma start_linv b w e s o r on cfg : boots tdec spill b w -> (forall t, e_trigger e t = true) ->
  on_start lc tdec spill e (b_wal b) (st_new (b_addr b) (b_height b) (b_interval b) (b_vals b)) = (s, o, r) ->
  linv b w [NStart o r] (absorb s on o (mkNode s true smr_init true (timer_new (b_interval b) cfg) true [] [] [] [] [] [] [] [] [] [])).
Proof.
  clear tenc cr. intros Hb He Hs. split; simpl.
  - exists (0, 0, 0), (0, 0, 0). split_and!; [done| |by left]. exists 0. split; [done|lia].
  - intros t Ht%trigs_of_in Hw. split; [done|]. unfold on_start in Hs. apply logged_inv in Hs as (r' & Hs & _).
    set (s0 := st_new _ _ _ _) in Hs. assert (dest s0 = [] /\ s_height s0 = b_height b /\ s_round s0 = 0 /\ s_auth s0 = auth_update (b_vals b)) as (D0 & D1 & D2 & D3) by done.
    clearbody s0. assert (forall t s, trigger_smr e t s = (s, [ATrigger t], Ok tt)) as Htr by (intros; unfold trigger_smr; by rewrite He).
    destruct (s_power s0) eqn:Hp.
    2: { unfold start_with_wal, get, ret in Hs. rewrite Hp in Hs. simpl in Hs. injection Hs as _ <- _. by apply elem_of_nil in Ht. }
    destruct w as [w|]; simpl in Hb.
    2: { rewrite Hb in Hs. unfold start_with_wal, get at 1 in Hs. rewrite Hp in Hs. cbn [negb] in Hs.
         unfold load_wal in Hs. unfold bind at 1, lift at 1 in Hs. destruct (s_height s0 =? INIT_HEIGHT); cbn [negb] in Hs.
         - unfold ret in Hs. injection Hs as _ <- _. by apply elem_of_nil in Ht.
         - unfold wal_lost, get in Hs. rewrite Htr in Hs. injection Hs as <- <- _. apply elem_of_list_singleton in Ht. injection Ht as ->.
           eexists. split; [reflexivity|]. simpl. done. }
    destruct Hb as ((bs & Ew & Hd) & Hw0 & _). rewrite Ew in Hs.
    destruct (get_proposer lc (s_auth s0) (wi_height w) (wi_round w)) as [p|x|] eqn:Hg.
    2-3: unfold start_with_wal, get at 1 in Hs; rewrite Hp in Hs; cbn [negb] in Hs;
      unfold load_wal in Hs; rewrite Hd in Hs; unfold bind at 1, lift at 1 in Hs;
      unfold bind at 1, modify at 1 in Hs; unfold bind at 1, is_proposer, get at 1 in Hs;
      cbn [s_auth s_height s_round set_s_round set_s_height s_addr] in Hs;
      unfold bind at 1, lift at 1 in Hs; rewrite Hg in Hs; injection Hs as _ <- _; by apply elem_of_nil in Ht.
    erewrite start_loaded in Hs by done. set (s1 := loaded_state w _ p s0) in Hs.
    assert (dest s1 = p /\ s_power s1 = true) as [E1 E2].
    { unfold s1, loaded_state, dest. destruct (wi_lock w); simpl; (split; [|done]); by case_bool_decide. }
    clearbody s1. unfold start_tail in Hs. destruct (bool_decide (wi_step w = SCommit)).
    + exfalso. destruct (wi_lock w) as [l|].
      2: { unfold fail in Hs. injection Hs as _ <- _. by apply elem_of_nil in Ht. }
      apply commit_move in Hs as [_ _ M3]; [|done]. apply M3 in Ht as [(x & Ex & _)|(_ & Hn & _)]; unfold is_wal in Hw; congruence.
    + assert (forall s2 o2 r2, (if bool_decide (wi_step w = SBrake) then handle_brake e (wi_round w) (wl_round <$> wi_lock w) else ret tt) s1 = (s2, o2, r2) ->
        dest s2 = p /\ forall t, ATrigger t ∈ o2 -> ~ is_wal t) as Hbr.
      { intros s2 o2 r2. destruct (bool_decide _).
        - intros Hx. split.
          + assert (keeps ldR (handle_brake (T:=T) e (wi_round w) (wl_round <$> wi_lock w))) as Hk by (keeps_go ld_comp; done).
            apply Hk, ld_dest in Hx. by rewrite Hx.
          + apply hold_brake in Hx as (_ & _ & _ & _ & A5). intros t0 Ht0. apply A5 in Ht0 as (_ & Hn & _). exact Hn.
        - unfold ret. intros [= <- <- _]. split; [done|]. by intros t0 ?%elem_of_nil. }
      apply bind_inv in Hs as [(a & s2 & o1 & o2 & Hx & Hs & ->)|[(x & Hx & _)|(Hx & _)]]; apply Hbr in Hx as [F1 F2]; [|by apply F2 in Ht..].
      apply elem_of_app in Ht as [Ht|Ht]; [by apply F2 in Ht|]. unfold get in Hs. rewrite Htr in Hs. injection Hs as <- <- _.
      apply elem_of_list_singleton in Ht. injection Ht as ->. exists (into_smr_base w). split; [done|]. simpl. split_and!; [done..|]. rewrite D3 in Hg. rewrite F1. exact Hg.
Qed.
Lemma dest_stays ops e i n n0 s o r : s_votes (nd_st n) = vops ops -> s_stopped (nd_st n) = false -> i <> IMsg MStop ->
  popped i n n0 -> react lc tenc e i (nd_st n) = (s, o, r) -> forall t, ATrigger t ∈ o -> ~ is_wal t.
Proof.
  clear tdec spill cr. intros Ev Hst Hns Hp Hr. pose proof (move_react _ _ _ _ _ _ _ _ _ Ev Hst Hns Hr) as [_ _ M3].
  intros t Ht. apply M3 in Ht as [(x & Ex & _)|(_ & Hn & _)]; unfold is_wal; congruence.
Qed.
Lemma state_linv b w log F ops (n : node T) e i n0 s o r on :
  ninv n -> s_votes (nd_st n) = vops ops -> nostop n -> vmode F n -> linv b w log n -> popped i n n0 -> react lc tenc e i (nd_st n) = (s, o, r) ->
  linv b w (log ++ [NState e i (nd_st n) o r]) (absorb s on o n0).
Proof.
  clear tdec spill cr. intros [_ Hle] Ev (Hst & Hq & _ & _ & Hevs & _) Hv [(c & c' & H1 & H2 & H3) H4] Hp Hr.
  assert (i <> IMsg MStop) as Hns.
  { intros ->. destruct Hp as (q & E & _). apply (Hq MStop); [|done]. rewrite E. left. }
  pose proof (dest_stays _ _ _ _ _ _ _ _ Ev Hst Hns Hp Hr) as Hnw.
  pose proof (popped_same _ _ _ Hp) as (Ep1 & Ep2 & Ep3 & Ep4 & Ep5 & Ep6 & Ep7 & Ep8 & Ep9 & Ep10 & Ep11 & Ep12).
  pose proof (kept_react _ _ _ _ _ _ _ _ Hr) as [Hmono _].
  assert (forall c q, evs_run c q c' -> ph c <= s_height (nd_st n)) as Hph.
  { intros [[h0 r0] k0] q Hx%evs_run_le. destruct H2 as (k & -> & _). unfold ple, plt, ph in *. simpl in *. lia. }
  assert (forall t, t ∈ nd_trig (absorb s on o n0) -> is_wal t -> t ∈ nd_trig n) as Htw.
  { simpl. rewrite Ep7. intros t [Ht|Ht%trigs_of_in]%elem_of_app Hw; [done|]. by apply Hnw in Ht. }
  destruct (new_round_of (NState e i (nd_st n) o r)) as [p|] eqn:En.
  - simpl in En. destruct i as [|ev| |]; try discriminate En. destruct ev as [h rd lr lp from iv cf| | | | |]; try discriminate En. injection En as <-.
    destruct Hp as (q & Eq & ->). rewrite Eq in H1. destruct H1 as (c1 & S1 & S2). destruct c as [[h0 r0] k0]. simpl in S1. destruct S1 as [S1 ->].
    split; rewrite posn_snoc; simpl new_round_of; cbv beta iota.
    + exists (h, rd, 0), c'. simpl. split_and!; [done..|]. intros Eh. apply Hph in S2. unfold ph in S2. simpl in S2.
      assert (s_height (nd_st n) = h) as Eh' by lia. do 9 eexists. split; [apply elem_of_app; right; left|]. split; [done|].
      apply new_round_dest in Hr. by rewrite Eh' in Hr.
    + intros t Ht Hw. exfalso. apply Htw in Ht; [|done].
      destruct Hv as [H0 A1 A2 A3 A4 (B1 & _) A6|j tw pre post A1 A2 A3 A4 A5 A6 (B1 & _) A8 A9 A10 A11 A12|d d' A1 A2 A3 A4 A5 A6]; [by rewrite B1 in Eq..|].
      rewrite Forall_forall in A4. by apply A4 in Ht.
  - assert (dest s = dest (nd_st n)) as Ed.
    { eapply ld_dest. eapply ld_react; [|exact Hr]. intros h rd lr lp from iv cf ->. done. }
    split; rewrite posn_snoc, En.
    + assert (exists c1, evs_run c1 (nd_evs n0) c' /\ c1.1 = c.1) as (c1 & S1 & E1).
      { destruct i as [m|ev|rs|m]; try (exists c; destruct Hp as (q & Eq & ->); by split).
        destruct Hp as (q & Eq & ->). rewrite Eq in H1. destruct H1 as (c1 & S1 & S2). exists c1. split; [done|]. destruct c as [[h0 r0] k0].
        destruct ev; simpl in S1; try done; try (by subst c1); try (by destruct S1 as (-> & -> & ->)); destruct S1 as (-> & -> & _ & ->); done. }
      exists c1, c'. simpl. rewrite Ep3. split_and!; [done..|]. unfold ph, pr in *. rewrite E1, Ed. destruct (posn log) as [p|]; [|done].
      destruct H3 as [H3 H5]. split; [done|]. intros Eh. apply entered_app, H5. apply Hph in S1. unfold ph in S1. rewrite E1, H3 in S1. lia.
    + simpl nd_st. rewrite Ed. intros t Ht Hw. apply H4; [by apply Htw|done].
Qed.
Lemma smr_linv b w log F (n n' : node T) t q m o r :
  nostop n -> vmode F n -> linv b w log n -> nd_trig n = t :: q -> trig_in_range t -> smr_step open_chans t (nd_smr n) = (m, o, r) ->
  nd_st n' = nd_st n -> nd_smr n' = m -> nd_trig n' = q -> nd_evs n' = nd_evs n ++ to_state o ->
  linv b w (log ++ [NSmr t (nd_smr n) o r]) n'.
Proof.
  clear tenc tdec spill cr. intros (_ & _ & _ & Hstop & _) Hv [(c & c' & H1 & H2 & H3) H4] Eq Hrg Hs E1 E2 E3 E4.
  assert (t_type t <> TStop) as Hts by (apply Hstop; rewrite Eq; left).
  split; rewrite posn_snoc; simpl new_round_of; cbv beta iota; rewrite E1, ?E2, ?E3, ?E4.
  2: { intros t' Ht'. apply H4. rewrite Eq. by right. }
  assert (forall p d, entered_under lc log p.1 p.2 d -> entered_under lc (log ++ [NSmr t (nd_smr n) o r]) p.1 p.2 d) as Hen by (intros; by apply entered_app).
  destruct (decide (t_type t = TWalInfo)) as [Hw|Hw].
  - destruct (H4 t) as (Epos & i & Ei & Hst); [rewrite Eq; left|done|]. rewrite Epos in *.
    destruct (handle_wal_inv _ _ _ _ _ _ _ Hw Ei Hs) as (F1 & F2 & F3 & F4).
    assert (nd_evs n = []) as Eevs.
    { destruct Hv as [H0 A1 A2 A3 A4 (B1 & _) A6|j tw pre post A1 A2 A3 A4 A5 A6 (B1 & _) A8 A9 A10 A11 A12|d d' A1 A2 A3 A4 A5 A6]; [done..|].
      rewrite Eq in A4. apply Forall_cons in A4 as [A4 _]. done. }
    exists (sb_height i, sb_round i, 0), (sb_height i, sb_round i, 0). split_and!.
    + by rewrite Eevs, F4.
    + exists 0. rewrite F1, F2. split; [done|lia].
    + by right.
  - destruct (smr_chain _ _ _ _ _ _ Hs Hw Hrg Hts H2) as (c2 & C1 & C2). exists c, c2. split_and!; [apply evs_run_app; eauto|done|].
    destruct (posn log) as [p|]; [|done]. destruct H3 as [H3 H5]. split; [done|]. intros E. by apply Hen, H5.
Qed.
Lemma noderun_linv b cfg log n w :
  noderun b cfg log n -> boots tdec spill b w -> smr_in_range log -> nd_on n = true -> linv b w log n.
Proof.
  induction 1 as [n log Hs|log n l n' log' Hr IH Hs]; intros Hb Hrg Hon.
  - unfold nstart in Hs. destruct (on_start _ _ _ _ _ _) as [[s o] r] eqn:E. injection Hs as <- <-. apply (start_linv b w _ s o r (goes_on r) cfg Hb) in E; [exact E|done].
  - assert (smr_in_range log) as Hrg' by (intros t m o r Hin; eapply Hrg; apply elem_of_app; by left).
    pose proof (noderun_run _ _ _ _ _ _ _ _ _ Hr) as Hrun. apply run_run_inv in Hrun. destruct Hrun as [(ops & Ev & _) _ _ _ _ _].
    apply noderun_ninv in Hr as Hni. apply noderun_nostop in Hr as Hno. destruct (noderun_flow _ _ _ _ _ _ _ _ _ _ Hr Hb Hrg') as (F & _ & Hv).
    apply nstep_inv in Hs as [m -> ->|e i n0 s o r Ho Hp Hx -> ->|t q m o r Ho Eq Hx -> ->|k a m Hk0 -> ->|k h r x b0 ok Ho -> ->|ev q Ho Eq -> ->|k ev Hk0 -> ->|ev q Ho Eq -> ->].
    + simpl in Hon. eapply linv_same; [..|by apply IH]; done.
    + eapply state_linv; try done; [by apply Hv|by apply IH].
    + simpl in Hon. pose proof Hno as (_ & _ & _ & _ & _ & _ & _ & Htm). rewrite Hon, Htm in Hx.
      assert (trig_in_range t) as Ht by (eapply Hrg; apply elem_of_app; right; by left).
      eapply (smr_linv _ _ _ F _ _ t q m o r Hno (Hv Hon)); try done. by apply IH.
    + assert (nd_on n = true) as Hon' by by destruct (verify_msg tenc cr a m).
      eapply linv_same; [..|by apply IH]; try done; by destruct (verify_msg tenc cr a m).
    + assert (nd_on n = true) as Hon' by by destruct ok.
      eapply linv_same; [..|by apply IH]; try done; by destruct ok.
    + destruct (arm_same ev (set_tevs q n)) as (E1 & E2 & E3 & E4 & E5 & E6 & E7 & E8 & E9 & _). rewrite E2 in Hon. simpl in *.
      eapply linv_same; [..|by apply IH]; try done. by rewrite E6.
    + simpl in Hon. eapply linv_same; [..|by apply IH]; done.
    + destruct (fire_same ev (set_fired q n)) as (E1 & E2 & E3 & E4 & E5 & E6 & E7 & E8 & E9 & E10 & E11 & E12 & E13 & E14 & E15 & E);
        rewrite E2 in Hon; simpl in *.
      eapply linv_same; [..|by apply IH]; try done.
      destruct E as [->|(t & Ht & ->)]; [done|]. intros t' [?|Et%elem_of_list_singleton]%elem_of_app Hw; [done|].
      subst t'. by apply timer_not_wal in Ht.
Qed.

(** ** C58 *)
(** A vote cast for a height the instance is at goes to the leader of its height and round: to the
    one that the validator list gave when the instance entered that round — or, while it is in the
    round it started in, to the one that the list of the start gave. *)
Theorem C58_votes_go_to_the_leader b cfg log n w l1 l2 e ev s o r h rd t x a d v :
  noderun b cfg log n -> boots tdec spill b w -> smr_in_range log ->
  log = l1 ++ NState e (IEvent ev) s o r :: l2 -> vote_event ev = Some (h, rd, t, x) -> h = s_height s -> 0 < h ->
  a ∈ o -> cast_to (s_addr s) a = Some (d, v) ->
  entered_under lc l1 h rd d \/ started_in lc b w h rd d.
Proof.
  intros Hr Hb Hrg Hl He -> Hh Ha Hc.
  destruct (noderun_input _ _ _ _ _ _ _ _ _ _ _ _ _ _ _ _ Hr Hl) as (n1 & n0 & s' & Hr1 & Es & Hon & Hp & Hx).
  assert (smr_in_range l1) as Hrg1 by (intros t0 m0 o0 r0 Hin; eapply Hrg; rewrite Hl; apply elem_of_app; by left).
  destruct (noderun_linv _ _ _ _ _ Hr1 Hb Hrg1 Hon) as [(c & c' & H1 & H2 & H3) _].
  pose proof (noderun_run _ _ _ _ _ _ _ _ _ Hr1) as Hrun. apply run_run_inv in Hrun. destruct Hrun as [(ops & Ev & _) _ _ _ _ _].
  apply noderun_nostop in Hr1 as (Hst & _). rewrite Es in *.
  rewrite (vote_dest _ _ _ _ _ _ _ _ _ _ Ev Hst Hx Ha Hc). destruct Hp as (q & Eq & _). rewrite Eq in H1. destruct H1 as (c1 & S1 & _).
  assert (c.1 = (s_height s, rd)) as Ec.
  { destruct c as [[h0 r0] k0]. destruct ev; try discriminate He; simpl in He; injection He as -> -> _ _; simpl in S1; destruct S1 as (-> & -> & _); done. }
  unfold ph, pr in H3. rewrite Ec in H3. destruct (posn l1) as [p|].
  - destruct H3 as [<- H3]. left. by apply H3.
  - destruct H3 as [E|H3]; [simpl in E; lia|by right].
Qed.
End L.
