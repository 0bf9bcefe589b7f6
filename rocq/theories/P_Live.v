(** * P_Live: an instance never waits for ever (C51). *)
From Verif Require Export NodeLive.
Set Default Proof Using "Type".

(** ** Specification *)
Section Spec.
Context {T : Type} `{EqDecision T}.
Context (lc : lcfg) (tenc : T -> bytes) (tdec : bytes -> option T) (spill : bool) (cr : crypto).

(** An endless execution of an instance: from a state it can be in, at each point a task makes a
    move, or nothing happens for a while; the event loop goes on (it ends by [Stop] only, C46 and
    C50), and certificates have rounds below 2^64 - 1. *)
Record execution (b : boot T) (cfg : option durcfg)
    (x : nat -> node T) (lab : nat -> option (label T)) (lg : nat -> list (nlog T)) : Prop := mkExecution {
  ex_start : exists log, noderun lc tenc tdec spill cr b cfg log (x 0%nat) /\ smr_in_range log;
  ex_step : forall i, match lab i with
                      | Some l => nstep lc tenc cr l (x i) = Some (x (S i), lg i)
                      | None => x (S i) = x i /\ lg i = []
                      end;
  ex_range : forall i, smr_in_range (lg i);
  ex_on : forall i, nd_on (x i) = true }.

(** The scheduler and the clock are fair: what waits in a channel is read at some time, and an
    armed timeout expires at some time. *)
Record fair (x : nat -> node T) (lab : nat -> option (label T)) (lg : nat -> list (nlog T)) : Prop := mkFair {
  fr_smr : forall i, nd_trig (x i) <> [] -> exists j, (i <= j)%nat /\ lab j = Some LSmr;
  fr_arm : forall i, nd_tevs (x i) <> [] -> exists j, (i <= j)%nat /\ lab j = Some LArm;
  fr_fire : forall i, nd_fired (x i) <> [] -> exists j, (i <= j)%nat /\ lab j = Some LFire;
  fr_event : forall i, nd_evs (x i) <> [] -> exists j e, (i <= j)%nat /\ lab j = Some (LEvent e);
  fr_clock : forall i e, e ∈ nd_sleeps (x i) -> exists j, (i <= j)%nat /\ NExpire e ∈ lg j }.

(** The state machine tells the state module to vote, to choke, to enter a round or to commit. *)
Definition orders (log : list (nlog T)) (ev : smr_event) : Prop :=
  exists t m o r, NSmr t m o r ∈ log /\ ev ∈ to_state o.
(** The state module treats an order. *)
Definition obeys (log : list (nlog T)) (ev : smr_event) : Prop :=
  exists e s o r, NState e (IEvent ev) s o r ∈ log.
End Spec.

(** ** Draining a queue *)
Lemma drain (P : nat -> nat -> Prop) (goal tick : nat -> Prop) :
  (forall p i, P p i -> goal i \/ exists p', (p' <= p)%nat /\ P p' (S i) /\ (tick i -> (p' < p)%nat)) ->
  (forall p i, P p i -> exists j, (i <= j)%nat /\ tick j) ->
  forall p i, P p i -> exists j, (i <= j)%nat /\ goal j.
Proof.
  intros Hs Hf p. induction p as [p IH] using (well_founded_induction lt_wf). intros i Hp.
  destruct (Hf p i Hp) as (j & Hij & Hj). remember (j - i)%nat as d eqn:Ed. revert i Hp Hij Ed.
  induction d as [|d IHd]; intros i Hp Hij Ed.
  - assert (i = j) as -> by lia. destruct (Hs p j Hp) as [Hg|(p' & Hle & Hp' & Ht)]; [by exists j|].
    destruct (IH p' (Ht Hj) (S j) Hp') as (k & ? & ?). exists k. split; [lia|done].
  - destruct (Hs p i Hp) as [Hg|(p' & Hle & Hp' & Ht)]; [by exists i|].
    destruct (decide (p' = p)) as [->|Hne].
    + destruct (IHd (S i) Hp') as (k & ? & ?); [lia..|]. exists k. split; [lia|done].
    + destruct (IH p' ltac:(lia) (S i) Hp') as (k & ? & ?). exists k. split; [lia|done].
Qed.

Lemma quiet_step t m m' o r :
  smr_step open_chans t m = (m', o, r) -> not_wal t -> to_state o = [] -> m' = m /\ o = [].
Proof.
  intros H Hw Ho. unfold not_wal, open_chans in *.
  smr_go H; try congruence; unfold to_state in Ho; simpl in Ho; try discriminate; done.
Qed.

Section P.
Context {T : Type} `{EqDecision T}.
Context (lc : lcfg) (tenc : T -> bytes) (tdec : bytes -> option T) (spill : bool) (cr : crypto).
Local Notation noderun := (noderun lc tenc tdec spill cr).

(** A move without an order: what becomes of the timeouts. *)
Record quiet (n n' : node T) (l : option (label T)) (log : list (nlog T)) : Prop := mkQuiet {
  qu_smr : nd_smr n' = nd_smr n;
  qu_trig : (exists t r, l = Some LSmr /\ nd_trig n = t :: nd_trig n' /\ smr_step open_chans t (nd_smr n) = (nd_smr n, [], r)) \/
            (l <> Some LSmr /\ exists more, nd_trig n' = nd_trig n ++ more);
  qu_tevs : (exists ev, l = Some LArm /\ nd_tevs n = ev :: nd_tevs n' /\ (waits_for (nd_smr n) ev -> ev ∈ nd_sleeps n')) \/
            (l <> Some LArm /\ nd_tevs n' = nd_tevs n);
  qu_sleeps : forall e, e ∈ nd_sleeps n -> (NExpire e ∉ log /\ e ∈ nd_sleeps n') \/ e ∈ nd_fired n';
  qu_fired : (exists ev, l = Some LFire /\ nd_fired n = ev :: nd_fired n' /\
                (waits_for (nd_smr n) ev -> Forall (not ∘ enters) (nd_tevs n) -> exists t, t ∈ nd_trig n' /\ fires ev t)) \/
             (l <> Some LFire /\ exists more, nd_fired n' = nd_fired n ++ more) }.
Lemma popped_timeouts i (n n0 : node T) : popped i n n0 ->
  nd_smr n0 = nd_smr n /\ nd_trig n0 = nd_trig n /\ nd_tevs n0 = nd_tevs n /\ nd_sleeps n0 = nd_sleeps n /\ nd_fired n0 = nd_fired n.
Proof. destruct i; simpl; intros (q & _ & ->); done. Qed.
Lemma quiet_same (n n' : node T) l log :
  nd_smr n' = nd_smr n -> (exists more, nd_trig n' = nd_trig n ++ more) -> nd_tevs n' = nd_tevs n -> nd_sleeps n' = nd_sleeps n ->
  nd_fired n' = nd_fired n -> l <> Some LSmr -> l <> Some LArm -> l <> Some LFire -> (forall e, NExpire e ∉ log) -> quiet n n' l log.
Proof.
  intros E1 E2 E3 E4 E5 N1 N2 N3 N4. split; [done|by right|by right| |].
  - intros e He. left. split; [done|by rewrite E4].
  - right. split; [done|]. exists []. by rewrite app_nil_r.
Qed.
(** The label of a move, from what is logged. *)
Lemma label_log l (n n' : node T) log : nstep lc tenc cr l n = Some (n', log) ->
  match l with
  | LSmr => exists t o r, log = [NSmr t (nd_smr n) o r]
  | LArm => exists ev, log = [NArm ev]
  | LFire => exists ev, log = [NFire ev]
  | LEvent _ => exists e ev s o r, log = [NState e (IEvent ev) s o r]
  | LExpire _ => exists ev, log = [NExpire ev]
  | LSend m => log = [NSend m]
  | LRaw _ => exists e m s o r, log = [NState e (IRaw m) s o r]
  | LResp _ => exists e v s o r, log = [NState e (IResp v) s o r]
  | LMsg _ => exists e m s o r, log = [NState e (IMsg m) s o r]
  | LVerify _ => exists a m ok, log = [NVerify a m ok]
  | LCheck _ _ => exists h r x b ok, log = [NCheck h r x b ok]
  end.
Proof.
  clear tdec spill. intros Hs. destruct l; simpl in Hs; try (injection Hs as <- <-; done);
  repeat (case_match; try done); unfold state_move, smr_move in *;
  repeat match type of Hs with context [react ?a ?b ?c ?d ?e] => destruct (react a b c d e) as [[??]?] | context [smr_step ?a ?b ?c] => destruct (smr_step a b c) as [[??]?] end;
  injection Hs as <- <-; simpl; eauto 10.
Qed.
Lemma move_quiet F l (n n' : node T) log :
  ninv n -> nostop n -> vmode F n -> nd_on n = true -> live n -> 0 < m_height (nd_smr n) ->
  nstep lc tenc cr l n = Some (n', log) -> (exists ev, orders log ev) \/ quiet n n' (Some l) log.
Proof.
  clear tdec spill. intros Hni (_ & _ & _ & _ & _ & Hnt & Hso & Hto) Hv Hon Hl Hh Hs.
  pose proof (label_log _ _ _ _ Hs) as Hlab.
  apply nstep_inv in Hs as [m -> ->|e i n0 s o r Ho Hp Hr -> ->|t q m o r ? Eq Hr -> ->|k a m Hk0 -> ->|k h r x b ok ? -> ->|ev q Htm Eq -> ->|k ev Hk0 -> ->|ev q Htm Eq -> ->].
  all: try (assert (forall P : Prop, (forall e, [NExpire e] <> [NExpire e] -> P) -> True) as _ by done).
  - right. apply quiet_same; try done; simpl; try (exists []; by rewrite app_nil_r); try (intros [= ->]; by destruct Hlab as (? & ? & ? & ?));
      try (intros [= ->]; by destruct Hlab as (? & ?)). by intros e ?%elem_of_list_singleton.
  - apply popped_timeouts in Hp as (E1 & E2 & E3 & E4 & E5). right. apply quiet_same; simpl; try done.
    + exists (trigs_of o). by rewrite E2.
    + intros [= ->]. by destruct Hlab as (? & ? & ? & ?).
    + intros [= ->]. by destruct Hlab as (? & ?).
    + intros [= ->]. by destruct Hlab as (? & ?).
    + by intros e' ?%elem_of_list_singleton.
  - rewrite Hon, Hto in Hr. change (mkChans true true) with open_chans in Hr.
    assert (not_wal t) as Hnw.
    { destruct Hv as [H0 A1 A2 A3 A4 (B1 & B2 & _) A6|j tw pre post A1 A2 A3 A4 A5 A6 (B1 & B2 & _) A8 A9 A10 A11 A12|c c' A1 A2 A3 A4 A5 A6].
      - rewrite A4 in Hh. by apply N.lt_irrefl in Hh.
      - rewrite A6 in Hh. by apply N.lt_irrefl in Hh.
      - rewrite Eq in A4. by apply Forall_cons in A4 as [? _]. }
    destruct (to_state o) as [|ev evs] eqn:Eo.
    2: { left. exists ev. exists t, (nd_smr n), o, r. split; [by left|]. rewrite Eo. by left. }
    right. destruct (quiet_step _ _ _ _ _ Hr Hnw Eo) as [-> ->]. destruct l; try (by (destruct Hlab as (? & ? & ? & ? & ? & ?)||destruct Hlab as (? & ? & ? & ?)||destruct Hlab as (? & ?)||idtac)).
    split; simpl; try done.
    + left. exists t, r. by rewrite Eq.
    + right. split; [done|]. by rewrite app_nil_r.
    + intros e He. left. split; [by intros ?%elem_of_list_singleton|done].
    + right. split; [done|]. exists []. by rewrite app_nil_r.
  - right. destruct l; try (by (destruct Hlab as (? & ? & ? & ? & ? & ?)||destruct Hlab as (? & ? & ? & ?)||destruct Hlab as (? & ?)||idtac)).
    destruct (verify_msg tenc cr a m); (apply quiet_same; simpl; try done; [exists []; by rewrite app_nil_r|by intros e ?%elem_of_list_singleton]).
  - right. destruct l; try (by (destruct Hlab as (? & ? & ? & ? & ? & ?)||destruct Hlab as (? & ? & ? & ?)||destruct Hlab as (? & ?)||idtac)).
    destruct ok; (apply quiet_same; simpl; try done; [exists []; by rewrite app_nil_r|by intros e ?%elem_of_list_singleton]).
  - right. destruct l; try (by (destruct Hlab as (? & ? & ? & ? & ? & ?)||destruct Hlab as (? & ? & ? & ?)||destruct Hlab as (? & ?)||idtac)).
    destruct (arm_same ev (set_tevs q n)) as (E1 & E2 & E3 & E4 & E5 & E6 & E7 & E8 & E9 & _). simpl in *.
    assert (forall y, y ∈ nd_sleeps n -> y ∈ nd_sleeps (arm_move ev (set_tevs q n))) as E10.
    { intros y Hy. unfold arm_move. destruct ev; try done; destruct (set_timer _ _) as [tm [[[ms e]|]| |]]; simpl; try done; apply elem_of_app; by left. }
    split; try done.
    + right. split; [done|]. exists []. by rewrite E6, app_nil_r.
    + left. exists ev. split_and!; [done|by rewrite E8|]. unfold waits_for, arm_move. intros Hw.
      destruct ev; destruct (m_step (nd_smr n)); try done; simpl; apply elem_of_app; right; by left.
    + intros e He. left. split; [by intros ?%elem_of_list_singleton|auto].
    + right. split; [done|]. exists []. by rewrite E9, app_nil_r.
  - right. destruct l; try (by (destruct Hlab as (? & ? & ? & ? & ? & ?)||destruct Hlab as (? & ? & ? & ?)||destruct Hlab as (? & ?)||idtac)).
    split; simpl; try done.
    + right. split; [done|]. exists []. by rewrite app_nil_r.
    + by right.
    + intros e He. destruct (elem_delete _ _ _ _ Hk0 He) as [->|Hd]; [right; apply elem_of_app; right; by left|].
      destruct (decide (e = ev)) as [->|Hne]; [right; apply elem_of_app; right; by left|].
      left. split; [|done]. intros Hx%elem_of_list_singleton. congruence.
    + right. split; [done|]. by eexists.
  - right. destruct l; try (by (destruct Hlab as (? & ? & ? & ? & ? & ?)||destruct Hlab as (? & ? & ? & ?)||destruct Hlab as (? & ?)||idtac)).
    destruct (fire_same ev (set_fired q n)) as (E1 & E2 & E3 & E4 & E5 & E6 & E7 & E8 & E9 & E10 & E11 & E12 & E13 & E14 & E15 & Htr). simpl in *.
    split; try done.
    + right. split; [done|]. destruct Htr as [->|(t & _ & ->)]; [exists []; by rewrite app_nil_r|by eexists].
    + by right.
    + intros e He. left. split; [by intros ?%elem_of_list_singleton|by rewrite E15].
    + left. exists ev. split_and!; [done|by rewrite E10|]. intros Hw Hno.
      destruct Hl as [[I1 I2] _]. rewrite feed_round in I2 by done. pose proof (feed_height (nd_tm n) (nd_tevs n)) as I3.
      destruct (expiry_progress _ _ (nd_tm n) Hw) as (t & _ & _ & _ & Ht & _); [lia|done|].
      exists t. split; [|by exists (nd_tm n)]. unfold fire_move. simpl. rewrite Ht, Hso. simpl. apply elem_of_app. right. by left.
Qed.

(** What waits for the event loop. *)
Lemma evs_move l (n n' : node T) log : nstep lc tenc cr l n = Some (n', log) ->
  (exists e e' ev s o r, l = LEvent e /\ log = [NState e' (IEvent ev) s o r] /\ nd_evs n = ev :: nd_evs n') \/
  ((forall e, l <> LEvent e) /\ exists more, nd_evs n' = nd_evs n ++ more).
Proof.
  clear tdec spill. intros Hs.
  destruct l; simpl in Hs; try (injection Hs as <- <-; right; split; [done|]; exists []; by rewrite app_nil_r);
  repeat (case_match; try done); unfold state_move, smr_move in *;
  repeat match type of Hs with context [react ?a ?b ?c ?d ?e] => destruct (react a b c d e) as [[??]?] | context [smr_step ?a ?b ?c] => destruct (smr_step a b c) as [[??]?] end;
  injection Hs as <- <-; simpl;
  try (right; split; [done|]; exists []; by rewrite app_nil_r).
  - left. eauto 15.
  - right. split; [done|]. by eexists.
  - right. split; [done|]. exists []. rewrite app_nil_r. destruct (arm_same s (set_tevs l n)) as (? & ? & ? & ? & ? & ? & E & _). done.
  - right. split; [done|]. exists []. rewrite app_nil_r. destruct (fire_same s (set_fired l n)) as (? & ? & ? & ? & ? & ? & ? & ? & ? & E). done.
Qed.

Section X.
Context (b : boot T) (cfg : option durcfg) (w : option (walinfo T)).
Context (x : nat -> node T) (lab : nat -> option (label T)) (lg : nat -> list (nlog T)).
Context (Hex : execution lc tenc tdec spill cr b cfg x lab lg) (Hfair : fair x lab lg) (Hboot : boots tdec spill b w).
Set Default Proof Using "Type Hex Hfair Hboot".

Lemma ex_reach i : exists log, noderun b cfg log (x i) /\ smr_in_range log.
Proof.
  destruct Hex as [Hst Hstep Hrg _]. induction i as [|i (log & Hr & Hl)]; [done|]. specialize (Hstep i). destruct (lab i) as [l|].
  - exists (log ++ lg i). split; [by eapply noderun_step|]. intros t m o r [Hi|Hi]%elem_of_app; [by eapply Hl|by eapply (Hrg i)].
  - destruct Hstep as [-> _]. by exists log.
Qed.
Lemma ex_live i : live (x i).
Proof. destruct (ex_reach i) as (log & Hr & Hl). eapply noderun_live; [done..|]. by apply (ex_on _ _ _ _ _ _ _ _ _ _ Hex). Qed.
Lemma ex_move i : 0 < m_height (nd_smr (x i)) -> (exists ev, orders (lg i) ev) \/ quiet (x i) (x (S i)) (lab i) (lg i).
Proof.
  intros Hh. destruct (ex_reach i) as (log & Hr & Hl). pose proof (ex_live i) as Hlv.
  destruct Hex as [_ Hstep _ Hon]. specialize (Hstep i). destruct (lab i) as [l|].
  - destruct (noderun_flow _ _ _ _ _ _ _ _ _ w Hr Hboot Hl) as (F & _ & Hv).
    eapply move_quiet; eauto; [by eapply noderun_ninv|by eapply noderun_nostop].
  - destruct Hstep as [E ->]. right. rewrite E. apply quiet_same; try done; [exists []; by rewrite app_nil_r|]. intros e He. by apply elem_of_nil in He.
Qed.

Section M.
Context (m : smr) (e : smr_event) (Hm : 0 < m_height m) (He : waits_for m e).
Set Default Proof Using "Type Hex Hfair Hboot Hm He".
Local Notation ordered j := (exists ev, orders (lg j) ev).

Lemma trig_acts i t : nd_smr (x i) = m -> t ∈ nd_trig (x i) -> fires e t -> exists j, (i <= j)%nat /\ ordered j.
Proof.
  intros Hi (l1 & l2 & Ht)%elem_of_list_split Hf.
  apply (drain (fun p i => nd_smr (x i) = m /\ exists l1 l2, nd_trig (x i) = l1 ++ t :: l2 /\ length l1 = p)
           (fun j => ordered j) (fun j => lab j = Some LSmr)) with (p := length l1).
  - clear i Hi l1 l2 Ht. intros p i (Hi & l1 & l2 & Ht & Hp). destruct (ex_move i) as [Ho|[Q1 Q2 _ _ _]]; [by rewrite Hi|by left|].
    right. rewrite Q1. destruct Q2 as [(t0 & r & El & E & Hs)|[El (more & E)]].
    + rewrite Ht in E. rewrite Hi in Hs. destruct l1 as [|t1 l1]; injection E as -> E.
      * exfalso. destruct (fires_acts _ _ _ _ _ _ He Hf Hs) as (ev & [=] & _).
      * exists (length l1). simpl in Hp. split; [lia|split; [|lia]]. split; [done|]. by exists l1, l2.
    + exists p. split; [lia|split; [|done]]. split; [done|]. exists l1, (l2 ++ more). split; [|done]. by rewrite E, Ht, <-app_assoc.
  - intros p j (_ & l3 & l4 & E & _). apply (fr_smr _ _ _ Hfair). rewrite E. by destruct l3.
  - split; [done|]. by exists l1, l2.
Qed.
Lemma suffix_quiet i : quiet (x i) (x (S i)) (lab i) (lg i) -> Forall (not ∘ enters) (nd_tevs (x i)) -> Forall (not ∘ enters) (nd_tevs (x (S i))).
Proof.
  intros [_ _ [(ev & _ & E & _)|[_ ->]] _ _] Hf; [|done]. rewrite E in Hf. by apply Forall_cons in Hf as [_ ?].
Qed.
Lemma fired_acts i : nd_smr (x i) = m -> e ∈ nd_fired (x i) -> Forall (not ∘ enters) (nd_tevs (x i)) -> exists j, (i <= j)%nat /\ ordered j.
Proof.
  intros Hi (l1 & l2 & Ht)%elem_of_list_split Hf.
  destruct (drain (fun p i => nd_smr (x i) = m /\ Forall (not ∘ enters) (nd_tevs (x i)) /\ exists l1 l2, nd_fired (x i) = l1 ++ e :: l2 /\ length l1 = p)
           (fun j => ordered j \/ nd_smr (x (S j)) = m /\ exists t, t ∈ nd_trig (x (S j)) /\ fires e t) (fun j => lab j = Some LFire)) with (p := length l1) (i := i)
    as (j & Hij & [Ho|(Hj & t & Hin & Hft)]).
  - clear i Hi l1 l2 Ht Hf. intros p i (Hi & Hf & l1 & l2 & Ht & Hp). destruct (ex_move i) as [Ho|Q]; [by rewrite Hi|by left; left|].
    pose proof (suffix_quiet _ Q Hf) as Hf'. destruct Q as [Q1 _ _ _ Q2].
    rewrite Q1. destruct Q2 as [(t0 & El & E & Hs)|[El (more & E)]].
    + rewrite Ht in E. rewrite Hi in Hs. destruct l1 as [|t1 l1]; injection E as -> E.
      * left. right. split; [done|]. by apply Hs.
      * right. exists (length l1). simpl in Hp. split; [lia|split; [|lia]]. split_and!; [done..|]. by exists l1, l2.
    + right. exists p. split; [lia|split; [|done]]. split_and!; [done..|]. exists l1, (l2 ++ more). split; [|done]. by rewrite E, Ht, <-app_assoc.
  - intros p j (_ & _ & l3 & l4 & E & _). apply (fr_fire _ _ _ Hfair). rewrite E. by destruct l3.
  - split_and!; [done..|]. by exists l1, l2.
  - by exists j.
  - destruct (trig_acts _ _ Hj Hin Hft) as (k & ? & ?). exists k. split; [lia|done].
Qed.
Lemma sleeps_acts i : nd_smr (x i) = m -> e ∈ nd_sleeps (x i) -> Forall (not ∘ enters) (nd_tevs (x i)) -> exists j, (i <= j)%nat /\ ordered j.
Proof.
  intros Hi Ht Hf.
  destruct (drain (fun p i => nd_smr (x i) = m /\ Forall (not ∘ enters) (nd_tevs (x i)) /\ e ∈ nd_sleeps (x i))
           (fun j => ordered j \/ nd_smr (x (S j)) = m /\ Forall (not ∘ enters) (nd_tevs (x (S j))) /\ e ∈ nd_fired (x (S j)))
           (fun j => NExpire e ∈ lg j)) with (p := 0%nat) (i := i)
    as (j & Hij & [Ho|(Hj & Hin & Hft)]); [| |done| |].
  - clear i Hi Ht Hf. intros p i (Hi & Hf & Ht). destruct (ex_move i) as [Ho|Q]; [by rewrite Hi|by left; left|].
    pose proof (suffix_quiet _ Q Hf) as Hf'. destruct Q as [Q1 _ _ Q2 _].
    rewrite Q1. destruct (Q2 _ Ht) as [[Hn Hs]|Hs]; [|by left; right].
    right. exists p. by split_and!.
  - intros p j (_ & _ & Hj). by apply (fr_clock _ _ _ Hfair).
  - by exists j.
  - destruct (fired_acts _ Hj Hft Hin) as (k & ? & ?). exists k. split; [lia|done].
Qed.
Lemma tevs_acts i l1 l2 : nd_smr (x i) = m -> nd_tevs (x i) = l1 ++ e :: l2 -> Forall (not ∘ enters) l2 -> exists j, (i <= j)%nat /\ ordered j.
Proof.
  intros Hi Ht Hf.
  destruct (drain (fun p i => nd_smr (x i) = m /\ exists l1, nd_tevs (x i) = l1 ++ e :: l2 /\ length l1 = p)
           (fun j => ordered j \/ nd_smr (x (S j)) = m /\ Forall (not ∘ enters) (nd_tevs (x (S j))) /\ e ∈ nd_sleeps (x (S j))) (fun j => lab j = Some LArm)) with (p := length l1) (i := i)
    as (j & Hij & [Ho|(Hj & Hin & Hft)]).
  - clear i Hi l1 Ht. intros p i (Hi & l1 & Ht & Hp). destruct (ex_move i) as [Ho|[Q1 _ Q2 _ _]]; [by rewrite Hi|by left; left|].
    rewrite Q1. destruct Q2 as [(t0 & El & E & Hs)|[El E]].
    + rewrite Ht in E. rewrite Hi in Hs. destruct l1 as [|t1 l1]; injection E as -> E.
      * left. right. split_and!; [done|by rewrite <-E|by apply Hs].
      * right. exists (length l1). simpl in Hp. split; [lia|split; [|lia]]. split; [done|]. by exists l1.
    + right. exists p. split; [lia|split; [|done]]. split; [done|]. exists l1. by rewrite E, Ht.
  - intros p j (_ & l3 & E & _). apply (fr_arm _ _ _ Hfair). rewrite E. by destruct l3.
  - split; [done|]. by exists l1.
  - by exists j.
  - destruct (sleeps_acts _ Hj Hft Hin) as (k & ? & ?). exists k. split; [lia|done].
Qed.
End M.
Set Default Proof Using "Type Hex Hfair Hboot".

Lemma order_treated i ev : orders (lg i) ev -> exists j, (i < j)%nat /\ obeys (lg j) ev.
Proof using Type Hex Hfair.
  intros Ho.
  assert (exists l1 l2, nd_evs (x (S i)) = l1 ++ ev :: l2) as (l1 & l2 & E).
  { destruct Ho as (t & m & o & r & Hin & Hev). pose proof (ex_step _ _ _ _ _ _ _ _ _ _ Hex i) as Hs.
    destruct (lab i) as [l|]; [|destruct Hs as [_ Hs]; rewrite Hs in Hin; by apply elem_of_nil in Hin].
    destruct (nstep_inv _ _ _ _ _ _ _ Hs) as [m0 H1 H2|e0 i0 n0 s o0 r0 H0 Hp H1 H2 H3|t0 q m0 o0 r0 H0 Eq H1 H2 H3|k a m0 Hk0 H1 H2|k h r0 x0 b0 ok H0 H1 H2|e0 q Htm Eq H1 H2|k e0 Hk0 H1 H2|e0 q Htm Eq H1 H2].
    all: try (rewrite H2 in Hin; apply elem_of_list_singleton in Hin; done).
    - rewrite H3 in Hin. by apply elem_of_list_singleton in Hin.
    - rewrite H3 in Hin. apply elem_of_list_singleton in Hin. injection Hin as -> -> -> ->. rewrite H2. simpl.
      apply elem_of_list_split in Hev as (l1 & l2 & ->). exists (nd_evs (x i) ++ l1), l2. by rewrite <-app_assoc. }
  destruct (drain (fun p j => (i < j)%nat /\ exists l1 l2, nd_evs (x j) = l1 ++ ev :: l2 /\ length l1 = p)
           (fun j => (i < j)%nat /\ obeys (lg j) ev) (fun j => exists e, lab j = Some (LEvent e))) with (p := length l1) (i := S i) as (j & ? & ? & ?).
  - clear l1 l2 E. intros p j (Hj & l1 & l2 & E & Hp). pose proof (ex_step _ _ _ _ _ _ _ _ _ _ Hex j) as Hs.
    destruct (lab j) as [l|] eqn:El.
    + apply evs_move in Hs as [(e & e' & ev' & s & o & r & -> & Hlg & Hq)|[Hne (more & Hq)]].
      * rewrite E in Hq. destruct l1 as [|e1 l1]; injection Hq as -> Hq.
        -- left. split; [done|]. exists e', s, o, r. rewrite Hlg. by left.
        -- right. exists (length l1). simpl in Hp. split; [lia|split; [|intros _; lia]]. split; [lia|]. by exists l1, l2.
      * right. exists p. split; [lia|split; [|intros (e & [= ->]); by destruct (Hne e)]]. split; [lia|]. exists l1, (l2 ++ more). by rewrite Hq, E, <-app_assoc.
    + destruct Hs as [Hs _]. right. exists p. split; [lia|split; [|by intros (? & ?)]]. split; [lia|]. exists l1, l2. by rewrite Hs.
  - intros p j (_ & l3 & l4 & E' & _). destruct (fr_event _ _ _ Hfair j) as (k & e & ? & ?); [rewrite E'; by destruct l3|]. exists k. by eauto.
  - split; [lia|]. by exists l1, l2.
  - by exists j.
Qed.
Lemma never_waits i : 0 < m_height (nd_smr (x i)) -> m_step (nd_smr (x i)) <> SCommit -> exists j ev, (i <= j)%nat /\ orders (lg j) ev.
Proof.
  intros Hh Hs. destruct (lv_armed _ (ex_live i) Hh Hs) as (e & Hw & Ho).
  assert (exists j, (i <= j)%nat /\ exists ev, orders (lg j) ev) as (j & ? & ev & ?); [|by exists j, ev].
  destruct Ho as [l1 l2 Ht Hl|Ht Hl|Ht Hl|t Ht Hf].
  - by eapply tevs_acts.
  - by eapply sleeps_acts.
  - by eapply fired_acts.
  - by eapply trig_acts.
Qed.
End X.
Set Default Proof Using "Type".
End P.

(** ** The property *)
Section C51.
Context {T : Type} `{EqDecision T}.
Context (lc : lcfg) (tenc : T -> bytes) (tdec : bytes -> option T) (spill : bool) (cr : crypto).

(** As long as the instance is not waiting for the user to commit a block, it acts again: whatever
    it receives or does not receive, whatever its outside world answers, and in whatever order
    its tasks run, its state machine gives another order. *)
Theorem C51_never_waits_forever b cfg w x lab lg :
  execution lc tenc tdec spill cr b cfg x lab lg -> fair x lab lg -> boots tdec spill b w ->
  forall i, 0 < m_height (nd_smr (x i)) ->
  exists j, (i <= j)%nat /\ (m_step (nd_smr (x j)) = SCommit \/ exists ev, orders (lg j) ev).
Proof.
  intros Hex Hf Hb i Hh. destruct (decide (m_step (nd_smr (x i)) = SCommit)) as [Hs|Hs]; [by eauto|].
  destruct (never_waits lc tenc tdec spill cr b cfg w x lab lg Hex Hf Hb i Hh Hs) as (j & ev & ? & ?). eauto.
Qed.
(** Every order is treated by the event loop, once it is given. *)
Theorem C51_orders_are_treated b cfg x lab lg :
  execution lc tenc tdec spill cr b cfg x lab lg -> fair x lab lg ->
  forall i ev, orders (lg i) ev -> exists j, (i < j)%nat /\ obeys (lg j) ev.
Proof. intros Hex Hf i ev. by eapply order_treated. Qed.
End C51.
