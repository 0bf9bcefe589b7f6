(** * P_Stall: a validator that cannot get out of a round asks for the next one again and again (C62). *)
From Verif Require Export P_Answer P_Choke P_Accept.
Set Default Proof Using "Type".

(** ** Specification *)
(** The state machine is in round [rd] of height [h] and has not decided. *)
Definition held_in (h rd : N) (m : smr) : Prop := m_height m = h /\ m_round m = rd /\ m_step m <> SCommit.
Global Instance held_in_dec h rd m : Decision (held_in h rd m).
Proof. unfold held_in. apply _. Defined.

Lemma rank_le s : step_u8 s <= 4.
Proof. by destruct s. Qed.

(** ** The state machine *)
(** As long as it stays in the round, an order is to choke, or to go a step further. *)
Lemma stays_ranks t m m' o r h rd :
  smr_step open_chans t m = (m', o, r) -> not_wal t -> trig_in_range t -> t_type t <> TStop ->
  (forall s, t_type t = TNewHeight s -> ss_height s <= m_height m) -> held_in h rd m -> held_in h rd m' ->
  step_u8 (m_step m) <= step_u8 (m_step m') /\
  forall ev, ev ∈ to_state o -> (exists lr, ev = EvBrake h rd lr) \/ step_u8 (m_step m) < step_u8 (m_step m').
Proof.
  intros H Hw Hr Hst Hn (H1 & H2 & H3) (G1 & G2 & G3). unfold not_wal, trig_in_range, open_chans in *.
  destruct m' as [mh' mr' ms' mhash' ml']; simpl in *.
  smr_go H; try congruence; try (exfalso; specialize (Hn _ eq_refl); lia).
  all: rewrite ?w64_succ, ?pred_succ in * by lia.
  all: try (exfalso; lia).
  all: unfold to_state; simpl; split; [try lia|].
  all: try (intros ev ?%elem_of_nil; done).
  all: try (intros ev Hev; apply elem_of_list_singleton in Hev as ->; simplify_eq; first [left; eexists; reflexivity|right; lia]).
  all: destruct ms; simpl; first [lia|congruence].
Qed.

Section A.
Context {T : Type} `{EqDecision T}.
Context (lc : lcfg) (tenc : T -> bytes) (tdec : bytes -> option T) (spill : bool) (cr : crypto).

(** ** An order to choke is obeyed *)
Lemma brake_obeyed e rd lr s s' o r :
  handle_brake (T:=T) e rd lr s = (s', o, r) -> rd = s_round s -> is_Some (lock_to_save s lr) -> (forall y, is_Some (cr_sign (e_crypto e) y)) ->
  (exists w, ASave w false ∈ o) \/
  exists sc, ABroadcast (MChoke sc) ∈ o /\ ck_height (sc_choke sc) = s_height s /\ ck_round (sc_choke sc) = s_round s /\ sc_addr sc = s_addr s.
Proof.
  clear lc tenc tdec spill cr. intros Hx -> [lk Hl] Hsg. unfold handle_brake, get in Hx. rewrite N.eqb_refl in Hx. cbn [negb] in Hx. cbv zeta in Hx.
  destruct (Hsg (cr_hash (e_crypto e) (enc (hashchoke_rlp (choke_to_hash (mkChoke (s_height s) (s_round s) (s_from s))))))) as [sig Hsig].
  rewrite Hsig in Hx. revert Hx. set (sc := mkSChoke _ _ _). intros Hx.
  apply bind_inv in Hx as [(u & s1 & o1 & o2 & H1 & Hx & ->)|[(x & H1 & ->)|(H1 & ->)]]; unfold emit in H1; [|discriminate H1..]. injection H1 as <- <- _.
  apply bind_inv in Hx as [(u' & s2 & o3 & o4 & H1 & Hx & ->)|[(x & H1 & ->)|(H1 & ->)]]; unfold modify in H1; [|discriminate H1..]. injection H1 as <- <- _.
  assert (lock_to_save (set_s_chokes (cc_insert (s_chokes s) (s_round s) sc) s) lr = Some lk) as Hl' by exact Hl.
  apply bind_inv in Hx as [(u1 & s2 & o5 & o6 & H1 & Hx & ->)|[(x & H1 & ->)|(H1 & ->)]];
    apply save_lr_inv in H1 as [-> H1]; rewrite Hl' in H1; cbv zeta in H1; destruct H1 as [-> H1].
  2-3: destruct (e_save _ _); [discriminate H1|left; eexists; cbn [app]; right; by left].
  right. exists sc. split_and!; try done.
  apply bind_inv in Hx as [(u2 & s3 & o7 & o8 & H2 & Hx & ->)|[(x & H2 & ->)|(H2 & ->)]]; unfold broadcast, emit in H2; [|done..]. injection H2 as <- <-.
  cbn [app]. right. right. by left.
Qed.
Lemma obey_brake e h rd lr s s' o r :
  react lc tenc e (IEvent (EvBrake h rd lr)) s = (s', o, r) -> s_power s = true -> s_stopped s = false -> s_height s = h -> s_round s = rd ->
  is_Some (lock_to_save s lr) -> (forall y, is_Some (cr_sign (e_crypto e) y)) ->
  (exists w, ASave w false ∈ o) \/
  exists sc, ABroadcast (MChoke sc) ∈ o /\ ck_height (sc_choke sc) = h /\ ck_round (sc_choke sc) = rd /\ sc_addr sc = s_addr s.
Proof.
  clear tdec spill cr. intros Hr Hp Hst Hh Hrd Hl Hsg.
  eapply react_core in Hr; [|reflexivity]. destruct Hr as [([[? _]|[? _]] & _)|(_ & r' & Hx & _)]; [congruence..|].
  unfold get in Hx. rewrite Hh, N.eqb_refl in Hx. cbn [negb] in Hx.
  destruct (brake_obeyed _ _ _ _ _ _ _ Hx (eq_sym Hrd) Hl Hsg) as [?|(sc & ? & ? & ? & ?)]; [by left|right]. exists sc. split_and!; congruence.
Qed.
End A.

Section X.
Context {T : Type} `{EqDecision T}.
Context (lc : lcfg) (tenc : T -> bytes) (tdec : bytes -> option T) (spill : bool) (cr : crypto).
Context (b : boot T) (cfg : option durcfg) (w : option (walinfo T)).
Context (x : nat -> node T) (lab : nat -> option (label T)) (lg : nat -> list (nlog T)).
Context (Hex : execution lc tenc tdec spill cr b cfg x lab lg) (Hfair : fair x lab lg) (Hboot : boots tdec spill b w).
Context (h rd : N) (Hh : 0 < h).
Set Default Proof Using "Type Hex Hfair Hboot Hh".
Definition out (j : nat) : Prop := ~ held_in h rd (nd_smr (x j)) \/ s_height (nd_st (x j)) <> h.
Local Instance out_dec j : Decision (out j).
Proof. unfold out. apply _. Defined.
Lemma not_out j : ~ out j -> held_in h rd (nd_smr (x j)) /\ s_height (nd_st (x j)) = h.
Proof using Type. unfold out. intros Hn. destruct (decide (held_in h rd (nd_smr (x j)))); destruct (decide (s_height (nd_st (x j)) = h)); tauto. Qed.
(** A move of the state machine inside the round. *)
Lemma rank_step j : ~ out j -> ~ out (S j) ->
  step_u8 (m_step (nd_smr (x j))) <= step_u8 (m_step (nd_smr (x (S j)))) /\
  forall ev, orders (lg j) ev -> (exists lr, ev = EvBrake h rd lr) \/ step_u8 (m_step (nd_smr (x j))) < step_u8 (m_step (nd_smr (x (S j)))).
Proof.
  intros [Hi Ha]%not_out [Hi' Ha']%not_out.
  destruct (ex_state _ _ _ _ _ _ _ _ _ _ _ Hex Hfair Hboot j) as [(e & inp & o & r & n0 & Elg & _ & _ & E1 & _)|(_ & _ & [(t0 & o & r & El & Elg & Et & Hst)|(El & E2 & _)])].
  - rewrite E1. split; [lia|]. intros ev (t & m & o' & r' & Hin & _). rewrite Elg in Hin. by apply elem_of_list_singleton in Hin.
  - destruct (ex_reach _ _ _ _ _ _ _ _ _ _ _ Hex Hfair Hboot j) as (log & Hrun & _). apply noderun_nostop in Hrun as (_ & _ & _ & Hns & _).
    assert (t0 ∈ nd_trig (x j)) as Hin by (rewrite Et; by left).
    destruct (ex_trig _ _ _ _ _ _ _ _ _ _ _ Hex Hfair Hboot h Hh j t0) as [Hnw Hnh]; [by destruct Hi|done|done|].
    assert (trig_in_range t0) as Hrg by (eapply (ex_range _ _ _ _ _ _ _ _ _ _ Hex j); rewrite Elg; by left).
    destruct (stays_ranks _ _ _ _ _ _ _ Hst Hnw Hrg (Hns _ Hin) Hnh Hi Hi') as [H1 H2]. split; [done|].
    intros ev (t & m & o' & r' & Hin' & Hev). rewrite Elg in Hin'. apply elem_of_list_singleton in Hin'. injection Hin' as -> -> -> ->. by apply H2.
  - rewrite E2. split; [lia|]. intros ev (t & m & o' & r' & Hin & _). exfalso. apply El.
    pose proof (ex_step _ _ _ _ _ _ _ _ _ _ Hex j) as Hs. destruct (lab j) as [l|]; [|destruct Hs as [_ Hs]; rewrite Hs in Hin; by apply elem_of_nil in Hin].
    apply label_log in Hs. destruct l; try done; exfalso;
      first [destruct Hs as (? & ? & ? & ? & ? & Hs)|destruct Hs as (? & ? & ? & Hs)|destruct Hs as (? & Hs)|idtac];
      rewrite Hs in Hin; by apply elem_of_list_singleton in Hin.
Qed.
Lemma rank_run i k : (i <= k)%nat -> (exists j, (i <= j)%nat /\ out j) \/ step_u8 (m_step (nd_smr (x i))) <= step_u8 (m_step (nd_smr (x k))).
Proof.
  induction 1 as [|k Hik IH]; [right; lia|]. destruct IH as [?|IH]; [by left|].
  destruct (decide (out k)); [left; by exists k|]. destruct (decide (out (S k))); [left; exists (S k); split; [lia|done]|].
  destruct (rank_step k) as [? _]; [done..|]. right. lia.
Qed.
(** The state machine leaves the round, or it orders to choke it. *)
Lemma brake_ordered i : exists j, (i <= j)%nat /\ (out j \/ exists lr, orders (lg j) (EvBrake h rd lr)).
Proof.
  remember (N.to_nat (4 - step_u8 (m_step (nd_smr (x i))))) as p eqn:Ep. revert i Ep.
  induction p as [p IH] using (well_founded_induction lt_wf). intros i Ep.
  destruct (decide (out i)) as [Ho|Hi]; [exists i; auto|]. pose proof (not_out _ Hi) as ((H1 & H2 & H3) & H4).
  destruct (never_waits _ _ _ _ _ _ _ _ _ _ _ Hex Hfair Hboot i) as (k & ev & Hik & Hev); [lia|done|].
  destruct (rank_run i k Hik) as [(j & ? & ?)|Hrk]; [exists j; auto|].
  destruct (decide (out k)) as [?|Hk]; [exists k; auto|]. destruct (decide (out (S k))) as [?|Hk']; [exists (S k); auto with lia|].
  destruct (rank_step k Hk Hk') as [_ Hr]. destruct (Hr _ Hev) as [[lr ->]|Hlt]; [exists k; eauto|].
  assert (step_u8 (m_step (nd_smr (x (S k)))) <= 4) as Hb by apply rank_le.
  destruct (IH (N.to_nat (4 - step_u8 (m_step (nd_smr (x (S k))))))) with (i := S k) as (j & ? & ?); [lia|done|]. exists j. split; [lia|done].
Qed.
(** The order is treated in the round. *)
Lemma brake_treated i lr : orders (lg i) (EvBrake h rd lr) ->
  exists j e s o r, (i < j)%nat /\ lg j = [NState e (IEvent (EvBrake h rd lr)) s o r] /\ s = nd_st (x j) /\
    react lc tenc e (IEvent (EvBrake h rd lr)) s = (nd_st (x (S j)), o, r) /\ (s_power s = true -> s_height s = h -> s_round s = rd).
Proof.
  intros Ho. destruct (order_treated _ _ _ _ _ _ _ _ _ _ Hex Hfair i _ Ho) as (j & Hij & e' & s' & o' & r' & Hin).
  destruct (ex_state _ _ _ _ _ _ _ _ _ _ _ Hex Hfair Hboot j) as [(e1 & inp1 & o1 & r1 & n1 & E & Hpop & Hr1 & _)|(Hno & _)]; [|by apply Hno in Hin].
  rewrite E in Hin. apply elem_of_list_singleton in Hin. injection Hin as -> <- -> -> ->.
  eexists j, _, _, _, _. split_and!; try done.
  destruct (ex_reach _ _ _ _ _ _ _ _ _ _ _ Hex Hfair Hboot j) as (log & Hr & Hrg).
  destruct (noderun_flow _ _ _ _ _ _ _ _ _ _ Hr Hboot Hrg) as (F & _ & Hvm). specialize (Hvm (ex_on _ _ _ _ _ _ _ _ _ _ Hex j)).
  destruct Hpop as (q & Eq & _).
  destruct Hvm as [H0 ? ? ? ? (B2 & _) ?|k tt pre post ? ? ? ? ? ? (B2 & _) ? ? ? ? ?|c c' Hple Hrun Hat Hnw Hsr Hst].
  1,2: by rewrite B2 in Eq.
  rewrite Eq in Hrun. destruct Hrun as (c1 & Hs1 & Hrun). destruct c as [[h0 r0] k0]. unfold ph, pr in *. simpl in *.
  destruct Hs1 as (-> & -> & _). auto.
Qed.
End X.
Set Default Proof Using "Type".

Section C62.
Context {T : Type} `{EqDecision T}.
Context (lc : lcfg) (tenc : T -> bytes) (tdec : bytes -> option T) (spill : bool) (cr : crypto).

(** The record of a lock [lr] can be made: its certificate and its block are at hand. *)
Definition recordable (s : st T) (lr : option N) : Prop :=
  match lr with
  | None => True
  | Some k => exists q blk, vc_get_qc_by_id (s_votes s) (s_height s) k Prevote = Ok q /\ s_blocks s !! av_hash q = Some blk
  end.
Lemma recordable_lock s lr : recordable s lr -> is_Some (lock_to_save s lr).
Proof. clear. unfold recordable, lock_to_save. destruct lr as [k|]; [|by eexists]. intros (q & blk & -> & ->). by eexists. Qed.
Global Instance recordable_dec s lr : Decision (recordable s lr).
Proof.
  unfold recordable. destruct lr as [k|]; [|left; done].
  destruct (vc_get_qc_by_id (s_votes s) (s_height s) k Prevote) as [q| |] eqn:E; [|right; by intros (? & ? & ? & ?)..].
  destruct (s_blocks s !! av_hash q) as [blk|] eqn:Eb; [left; eauto|right]. intros (q' & blk & [= ->] & Hb). congruence.
Defined.

(** C62. From any moment on: the state machine gets out of the round it is in (to another round or
    height, or by a decision), or the instance is told of another height, or is no validator any
    more, or it is going to broadcast its choke of the round; unless its record of this cannot be written. So an
    instance that stays in a round chokes it again and again. *)
Theorem C62_stalled_validators_keep_asking b cfg w x lab lg :
  execution lc tenc tdec spill cr b cfg x lab lg -> fair x lab lg -> boots tdec spill b w -> P_Answer.signs lg ->
  forall h rd i, 0 < h ->
    exists j, (i <= j)%nat /\
      (~ held_in h rd (nd_smr (x j)) \/ s_height (nd_st (x j)) <> h \/ s_power (nd_st (x j)) = false \/
       exists e lr s o r, lg j = [NState e (IEvent (EvBrake h rd lr)) s o r] /\
         ((exists w, ASave w false ∈ o) \/ ~ recordable s lr \/
          exists sc, ABroadcast (MChoke sc) ∈ o /\ ck_height (sc_choke sc) = h /\ ck_round (sc_choke sc) = rd /\ sc_addr sc = b_addr b)).
Proof.
  intros Hex Hf Hb Hsg h rd i Hh.
  destruct (brake_ordered _ _ _ _ _ _ _ _ _ _ _ Hex Hf Hb h rd Hh i) as (k & Hik & [[?|?]|(lr & Ho)]); [exists k; auto..|].
  destruct (brake_treated _ _ _ _ _ _ _ _ _ _ _ Hex Hf Hb h rd Hh k lr Ho) as (j & e & s & o & r & Hkj & Elg & -> & Hr & Hrd).
  exists j. split; [lia|].
  destruct (s_power (nd_st (x j))) eqn:Hp; [|auto]. destruct (decide (s_height (nd_st (x j)) = h)) as [Ej|]; [|auto]. right. right. right.
  exists e, lr, (nd_st (x j)), o, r. split; [done|]. destruct (decide (recordable (nd_st (x j)) lr)) as [Hrc|]; [|auto].
  destruct (ex_reach _ _ _ _ _ _ _ _ _ _ _ Hex Hf Hb j) as (log & Hrun & _). pose proof (noderun_nostop _ _ _ _ _ _ _ _ _ Hrun) as (Hst & _).
  pose proof (noderun_run _ _ _ _ _ _ _ _ _ Hrun) as Hrun'. apply run_run_inv in Hrun' as [_ _ _ _ _ Had]. simpl in Had.
  assert (forall z, is_Some (cr_sign (e_crypto e) z)) as Hsg' by (eapply (Hsg j); rewrite Elg; by left).
  destruct (obey_brake _ _ _ _ _ _ _ _ _ _ Hr Hp Hst Ej (Hrd eq_refl Ej) (recordable_lock _ _ Hrc) Hsg') as [?|(sc & ? & ? & ? & ?)]; [auto|].
  right. right. exists sc. split_and!; try done. congruence.
Qed.
End C62.
Print Assumptions C62_stalled_validators_keep_asking.
