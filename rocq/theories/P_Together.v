(** * P_Together: validators that hear each other cannot all be stuck in one round (C63). *)
From Verif Require Export P_Stall.
Set Default Proof Using "Type".

Section X.
Context {T : Type} `{EqDecision T}.
Context (lc : lcfg) (tenc : T -> bytes) (tdec : bytes -> option T) (spill : bool) (cr : crypto).
Context (b : boot T) (cfg : option durcfg) (w : option (walinfo T)).
Context (x : nat -> node T) (lab : nat -> option (label T)) (lg : nat -> list (nlog T)).
Context (Hex : execution lc tenc tdec spill cr b cfg x lab lg) (Hfair : fair x lab lg) (Hboot : boots tdec spill b w).
Context (h rd : N) (Hh : 0 < h).
Set Default Proof Using "Type Hex Hfair Hboot Hh".
Definition outp (j : nat) : Prop := out x h rd j \/ s_power (nd_st (x j)) = false.
Local Instance outp_dec j : Decision (outp j).
Proof. unfold outp. apply _. Defined.
Lemma not_outp j : ~ outp j -> held_in h rd (nd_smr (x j)) /\ s_height (nd_st (x j)) = h /\ s_power (nd_st (x j)) = true.
Proof using Type.
  unfold outp. intros Hn. destruct (decide (out x h rd j)) as [|Ho]; [tauto|]. apply not_out in Ho as [? ?]. split_and!; [done..|].
  destruct (s_power (nd_st (x j))); tauto.
Qed.
(** The state module is in the round too, and the events on the way to it keep it there. *)
Definition pinned (j : nat) : Prop :=
  s_round (nd_st (x j)) = rd /\ exists k c', evs_run (h, rd, k) (nd_evs (x j)) c' /\ at_smr c' (nd_smr (x j)).
(** A choke order for the round pins it. *)
Lemma brake_pins j e lr s o r : lg j = [NState e (IEvent (EvBrake h rd lr)) s o r] -> ~ outp j -> pinned j.
Proof.
  intros Elg (Hi & Hht & Hp)%not_outp.
  destruct (ex_state _ _ _ _ _ _ _ _ _ _ _ Hex Hfair Hboot j) as [(e1 & inp1 & o1 & r1 & n1 & E & Hpop & Hr1 & _)|(Hno & _)]; [|exfalso; eapply Hno; rewrite Elg; by left].
  rewrite Elg in E. injection E as -> <- -> -> ->.
  destruct (ex_reach _ _ _ _ _ _ _ _ _ _ _ Hex Hfair Hboot j) as (log & Hr & Hrg).
  destruct (noderun_flow _ _ _ _ _ _ _ _ _ _ Hr Hboot Hrg) as (F & _ & Hvm). specialize (Hvm (ex_on _ _ _ _ _ _ _ _ _ _ Hex j)).
  destruct Hpop as (q & Eq & _).
  destruct Hvm as [H0 ? ? ? ? (B2 & _) ?|k tt pre post ? ? ? ? ? ? (B2 & _) ? ? ? ? ?|c c' Hple Hrun Hat Hnw Hsr Hst].
  1,2: by rewrite B2 in Eq.
  pose proof Hrun as Hrun'. rewrite Eq in Hrun'. destruct Hrun' as (c1 & Hs1 & _). destruct c as [[h0 r0] k0]. unfold ph, pr in *. simpl in *.
  destruct Hs1 as (<- & <- & _). split; [auto|]. exists k0, c'. done.
Qed.
Lemma pinned_step j : pinned j -> ~ outp j -> ~ outp (S j) -> pinned (S j).
Proof.
  intros (Hsr & k & c' & Hrun & Hat) (Hi & Hht & Hp)%not_outp (Hi' & Hht' & Hp')%not_outp.
  destruct (ex_reach _ _ _ _ _ _ _ _ _ _ _ Hex Hfair Hboot j) as (log & Hr & Hrg).
  pose proof (noderun_run _ _ _ _ _ _ _ _ _ Hr) as Hrr. apply run_run_inv in Hrr. destruct Hrr as [(ops & Ev & _) _ _ _ _ _].
  pose proof (noderun_nostop _ _ _ _ _ _ _ _ _ Hr) as (Hst & Hq & _ & Hns & _ & _ & Hson & Hto).
  pose proof (ex_on _ _ _ _ _ _ _ _ _ _ Hex j) as Hon.
  destruct (noderun_flow _ _ _ _ _ _ _ _ _ _ Hr Hboot Hrg) as (F & _ & Hvm). specialize (Hvm Hon).
  assert (Forall not_wal (nd_trig (x j))) as Hnw.
  { destruct Hi as (E & _). destruct Hvm as [H0 ? ? ? E0 ? ?|k0 tt pre post ? ? ? ? ? E0 ? ? ? ? ? ?|c c1 ? ? ? ? ? ?]; [| |done]; rewrite E0 in E; clear -E Hh; subst h; discriminate Hh. }
  assert (exists k', c' = (h, rd, k')) as [kc ->]. { destruct Hat as (k' & -> & _). destruct Hi as (<- & <- & _). eauto. }
  pose proof (ex_step _ _ _ _ _ _ _ _ _ _ Hex j) as Hs. destruct (lab j) as [l|]; [|destruct Hs as [Es _]; unfold pinned; rewrite Es; eauto].
  apply nstep_inv in Hs as [m E _|e inp n0 s o r Ho Hpop Hre E _|t q m o r ? Eq Hre E Elg|k1 a m Hk0 E _|k1 h0 r x0 b0 ok ? E _|ev q Htm Eq E _|k1 ev Hk0 E _|ev q Htm Eq E _].
  - unfold pinned. rewrite E. simpl. eauto.
  - assert (inp <> IMsg MStop) as Hne.
    { intros ->. destruct Hpop as (q & Eq & _). apply (Hq MStop); [|done]. rewrite Eq. left. }
    pose proof (move_react _ _ _ _ _ _ _ _ _ Ev Hst Hne Hre) as [[M1|(M1 & _ & M1r)] _ _].
    { exfalso. rewrite E in Hht'. simpl in Hht'. lia. }
    unfold pinned. rewrite E. simpl. rewrite M1r. apply popped_same in Hpop as Hpop'. destruct Hpop' as (_ & _ & -> & _).
    destruct inp as [m|ev|rs|m].
    1, 3, 4: destruct Hpop as (q & Eq & ->); simpl; split; [done|]; by exists k, (h, rd, kc).
    destruct Hpop as (q & Eq & ->). rewrite Eq in Hrun. destruct Hrun as ([[h1 r1] k1] & Hs1 & Hrun).
    pose proof (evs_step_le _ _ _ Hs1) as L1. pose proof (evs_run_le _ _ _ Hrun) as L2. unfold ple, plt in *. simpl in *.
    assert (h1 = h /\ r1 = rd) as [-> ->] by lia. split; [|by exists k1, (h, rd, kc)].
    destruct ev; try done. simpl in Hs1. destruct Hs1 as [Hs1 Hc]. injection Hc as <- <- _. lia.
  - assert (t ∈ nd_trig (x j)) as Hin by (rewrite Eq; by left).
    assert (trig_in_range t) as Hrt by (eapply (ex_range _ _ _ _ _ _ _ _ _ _ Hex j); rewrite Elg; by left).
    rewrite Forall_forall in Hnw. rewrite Hon, Hto in Hre.
    destruct (smr_chain _ _ _ _ _ _ Hre (Hnw _ Hin) Hrt (Hns _ Hin) Hat) as (c2 & C1 & C2).
    unfold pinned. rewrite E. split; [done|]. simpl. exists k, c2. split; [|done]. apply evs_run_app. eauto.
  - unfold pinned. rewrite E. destruct (verify_msg tenc cr a m); simpl; eauto.
  - unfold pinned. rewrite E. destruct ok; simpl; eauto.
  - unfold pinned. rewrite E. destruct (arm_same ev (set_tevs q (x j))) as (E1 & E2 & E3 & E4 & E5 & E6 & E7 & E8 & E9 & _). simpl in *.
    rewrite E1, E3. split; [done|]. exists k, (h, rd, kc). by rewrite ?E7, ?E8, ?E6, ?E5, ?E9.
  - unfold pinned. rewrite E. simpl. eauto.
  - unfold pinned. rewrite E. destruct (fire_same ev (set_fired q (x j))) as (E1 & E2 & E3 & E4 & E5 & E6 & E7 & E8 & E9 & _). simpl in *.
    rewrite E1, E3. split; [done|]. exists k, (h, rd, kc). by rewrite ?E7, ?E8, ?E6, ?E5, ?E9.
Qed.
Lemma pinned_run i k : (i <= k)%nat -> pinned i -> (exists j, (i <= j)%nat /\ outp j) \/ pinned k.
Proof.
  intros Hik Hp. induction Hik as [|k Hik IH]; [by right|]. destruct IH as [?|IH]; [by left|].
  destruct (decide (outp k)); [left; by exists k|]. destruct (decide (outp (S k))); [left; exists (S k); split; [lia|done]|].
  right. by apply pinned_step.
Qed.
(** The history of the execution up to a moment. *)
Fixpoint upto (log0 : list (nlog T)) (j : nat) : list (nlog T) := match j with O => log0 | S j => upto log0 j ++ lg j end.
Lemma upto_runs log0 j : noderun lc tenc tdec spill cr b cfg log0 (x 0%nat) -> noderun lc tenc tdec spill cr b cfg (upto log0 j) (x j).
Proof using Type Hex.
  intros H0. induction j as [|j IH]; [done|]. simpl. pose proof (ex_step _ _ _ _ _ _ _ _ _ _ Hex j) as Hs.
  destruct (lab j); [by eapply noderun_step|]. destruct Hs as [-> ->]. by rewrite app_nil_r.
Qed.
Lemma upto_in log0 i j g : (i < j)%nat -> g ∈ lg i -> g ∈ upto log0 j.
Proof using Type.
  intros Hij Hg. induction Hij as [|j Hij IH]; simpl; apply elem_of_app; [by right|by left].
Qed.
Lemma upto_chokes log0 j sc : choke_seen (upto log0 j) sc -> choke_seen log0 sc \/ exists i, choke_seen (lg i) sc.
Proof using Type.
  induction j as [|j IH]; [auto|]. simpl. unfold choke_seen at 1. rewrite actions_app. intros [(e & s & o & r & [Hin|Hin]%elem_of_app)|[Hin|Hin]%elem_of_app].
  - apply IH. left. eauto.
  - right. exists j. left. eauto.
  - apply IH. by right.
  - right. exists j. by right.
Qed.
End X.
Set Default Proof Using "Type".

(** ** Specification *)
Section C63.
Context {T : Type} `{EqDecision T}.
Context (lc : lcfg) (tenc : T -> bytes) (tdec : bytes -> option T) (spill : bool).
(** Validators on one clock: [x a j] is the instance of validator [a] at time [j]. *)
Context (cr : bytes -> crypto) (b : bytes -> boot T) (cfg : bytes -> option durcfg) (w : bytes -> option (walinfo T)).
Context (x : bytes -> nat -> node T) (lab : bytes -> nat -> option (label T)) (lg : bytes -> nat -> list (nlog T)).

(** The application signs and aggregates, records are written, and the certificate and block of a
    lock that has to be recorded are at hand. *)
Record served (lg : nat -> list (nlog T)) : Prop := mkServed {
  sv_sign : P_Answer.signs lg;
  sv_agg : forall j e i s o r, NState e i s o r ∈ lg j -> forall sigs who, is_Some (cr_aggregate (e_crypto e) sigs who);
  sv_save : forall j e i s o r w, NState e i s o r ∈ lg j -> ~ ASave w false ∈ o;
  sv_lock : forall j e h rd lr s o r, NState e (IEvent (EvBrake h rd lr)) s o r ∈ lg j -> recordable s lr }.
(** What a validator of [Q] broadcasts to choke round [rd] of height [h] reaches the state module of
    the other validators of [Q]. *)
Definition chokes_arrive (Q : list bytes) (h rd : N) : Prop :=
  forall a a' j e i s o r sc, a ∈ Q -> a' ∈ Q -> a <> a' -> lg a j = [NState e i s o r] -> ABroadcast (MChoke sc) ∈ o ->
    ck_height (sc_choke sc) = h -> ck_round (sc_choke sc) = rd ->
    exists k e' s' o' r', (j <= k)%nat /\ lg a' k = [NState e' (IMsg (MChoke sc)) s' o' r'].

(** C63. Take more than two thirds (in number) of the validators of height [h], whose chokes of round
    [rd] reach each other. After any moment, one of them is out of the round: its state machine is in
    another round, at another height, or has decided; or it was told of another height, or that it is no validator. *)
Theorem C63_validators_do_not_stay_in_a_round Q h rd :
  0 < h -> Q <> [] -> NoDup Q ->
  (forall a, a ∈ Q -> execution lc tenc tdec spill (cr a) (b a) (cfg a) (x a) (lab a) (lg a) /\ fair (x a) (lab a) (lg a) /\
     boots tdec spill (b a) (w a) /\ b_addr (b a) = a /\ served (lg a)) ->
  (forall a j, a ∈ Q -> s_height (nd_st (x a j)) = h -> (3 * length Q > 2 * auth_len (s_auth (nd_st (x a j))))%nat) ->
  (forall a, a ∈ Q -> exists log0, noderun lc tenc tdec spill (cr a) (b a) (cfg a) log0 (x a 0%nat) /\
     forall sc, choke_seen log0 sc \/ (exists j, choke_seen (lg a j) sc) -> ck_round (sc_choke sc) + 1 < 2 ^ 64) ->
  chokes_arrive Q h rd ->
  forall i, exists a j, a ∈ Q /\ (i <= j)%nat /\
    (~ held_in h rd (nd_smr (x a j)) \/ s_height (nd_st (x a j)) <> h \/ s_power (nd_st (x a j)) = false).
Proof.
  intros Hh Hne Hnd HQ Hlen Hlow Harr i0.
  set (G := exists a j, a ∈ Q /\ (i0 <= j)%nat /\ (~ held_in h rd (nd_smr (x a j)) \/ s_height (nd_st (x a j)) <> h \/ s_power (nd_st (x a j)) = false)).
  change G.
  assert (forall a j, a ∈ Q -> (i0 <= j)%nat -> outp (x a) h rd j -> G) as HG.
  { intros a j Ha Hj Ho. exists a, j. split; [done|]. split; [done|]. unfold outp, out in Ho. tauto. }
  (* whenever nobody is out, every validator chokes again *)
  assert (forall a J, a ∈ Q -> (i0 <= J)%nat -> G \/ exists j e lr s o r sc, (J <= j)%nat /\ lg a j = [NState e (IEvent (EvBrake h rd lr)) s o r] /\
    ~ outp (x a) h rd j /\ ABroadcast (MChoke sc) ∈ o /\ ck_height (sc_choke sc) = h /\ ck_round (sc_choke sc) = rd /\ sc_addr sc = a) as Hchoke.
  { intros a J Ha HJ. destruct (HQ a Ha) as (Hex & Hf & Hb & Ead & [V1 V2 V3 V4]).
    destruct (C62_stalled_validators_keep_asking _ _ _ _ _ _ _ _ _ _ _ Hex Hf Hb V1 h rd J Hh) as (j & HJj & Hc).
    destruct (decide (outp (x a) h rd j)) as [Ho|Ho]; [left; apply (HG a j); [done|lia|done]|].
    pose proof (not_outp _ _ _ _ Ho) as (N1 & N2 & N3).
    destruct Hc as [Hc|[Hc|[Hc|(e & lr & s & o & r & Elg & Hc)]]]; [by destruct Hc|by destruct Hc|by rewrite N3 in Hc|].
    assert (NState e (IEvent (EvBrake h rd lr)) s o r ∈ lg a j) as Hin by (rewrite Elg; by left).
    destruct Hc as [(w0 & Hw)|[Hn|(sc & Hbr & Hx)]]; [by destruct (V3 _ _ _ _ _ _ w0 Hin)|by destruct Hn; eapply V4|].
    right. exists j, e, lr, s, o, r, sc. rewrite Ead in Hx. destruct Hx as (? & ? & ?). done. }
  (* from some moment on all of them are in the round *)
  assert (G \/ exists J, (i0 <= J)%nat /\ forall a, a ∈ Q -> exists j, (i0 <= j)%nat /\ (j <= J)%nat /\ pinned (x a) h rd j) as [?|(J & HJ & Hpin)]; [|done|].
  { assert (forall Q', Q' ⊆ Q -> G \/ exists J, (i0 <= J)%nat /\ forall a, a ∈ Q' -> exists j, (i0 <= j)%nat /\ (j <= J)%nat /\ pinned (x a) h rd j) as Hall; [|by apply Hall].
    induction Q' as [|a Q' IH]; intros Hsub; [right; exists i0; split; [lia|by intros a ?%elem_of_nil]|].
    destruct IH as [?|(J & HJ & HJ')]; [set_solver|by left|].
    assert (a ∈ Q) as Ha by set_solver. destruct (Hchoke a i0 Ha) as [?|(j & e & lr & s & o & r & sc & Hij & Elg & Ho & _)]; [lia|by left|].
    destruct (HQ a Ha) as (Hex & Hf & Hb & Ead & _). pose proof (brake_pins _ _ _ _ _ _ _ _ _ _ _ Hex Hf Hb h rd Hh _ _ _ _ _ _ Elg Ho) as Hp.
    right. exists (J + j)%nat. split; [lia|]. intros a' [->|Ha']%elem_of_cons; [exists j; split_and!; [lia|lia|done]|].
    destruct (HJ' _ Ha') as (j' & ? & ? & ?). exists j'. split_and!; [done|lia|done]. }
  assert (forall a k, a ∈ Q -> (J <= k)%nat -> G \/ pinned (x a) h rd k) as Hin_round.
  { intros a k Ha Hk. destruct (Hpin a Ha) as (j & H1 & H2 & H3). destruct (HQ a Ha) as (Hex & Hf & Hb & Ead & _).
    destruct (pinned_run _ _ _ _ _ _ _ _ _ _ _ Hex Hf Hb h rd Hh j k) as [(j' & ? & Ho)|?]; [lia|done| |by right]. left. apply (HG a j'); [done|lia|done]. }
  assert (exists a0, a0 ∈ Q) as (a0 & Ha0) by (destruct Q as [|a0 Q0]; [done|exists a0; left]). clear Hne.
  destruct (HQ a0 Ha0) as (Hex & Hf & Hb & Ead & [V1 V2 V3 V4]).
  (* the state module of the first one counts the chokes of the others *)
  set (counted := fun a k => exists e sc s o r, lg a0 k = [NState e (IMsg (MChoke sc)) s o r] /\ s_height s = h /\ s_round s = rd /\
    sc_addr sc = a /\ ck_height (sc_choke sc) = h /\ ck_round (sc_choke sc) = rd).
  assert (forall a, a ∈ Q -> a <> a0 -> G \/ exists k, counted a k) as Hcnt.
  { intros a Ha Hne. destruct (Hchoke a J Ha HJ) as [?|(j & e & lr & s & o & r & sc & Hij & Elg & Ho & Hbr & E1 & E2 & E3)]; [by left|].
    destruct (Harr a a0 j _ _ _ _ _ sc Ha Ha0 Hne Elg Hbr E1 E2) as (k & e' & s' & o' & r' & Hjk & Elg').
    destruct (decide (outp (x a0) h rd k)) as [Hk|Hk]; [left; apply (HG a0 k); [done|lia|done]|].
    destruct (Hin_round a0 k Ha0) as [?|[Hpr _]]; [lia|by left|]. apply not_outp in Hk as (_ & Hk & _).
    right. exists k, e', sc, s', o', r'.
    destruct (ex_state _ _ _ _ _ _ _ _ _ _ _ Hex Hf Hb k) as [(e1 & inp1 & o1 & r1 & n1 & E & _)|(Hno & _)]; [|exfalso; eapply Hno; rewrite Elg'; by left].
    rewrite Elg' in E. injection E as _ _ -> _ _. done. }
  assert (G \/ exists K, (J <= K)%nat /\ forall a, a ∈ Q -> a <> a0 -> exists k, (k < K)%nat /\ counted a k) as [?|(K & HK & Hall)]; [|done|].
  { assert (forall Q', Q' ⊆ Q -> G \/ exists K, (J <= K)%nat /\ forall a, a ∈ Q' -> a <> a0 -> exists k, (k < K)%nat /\ counted a k) as Hall; [|by apply Hall].
    induction Q' as [|a Q' IH]; intros Hsub; [right; exists J; split; [lia|by intros a ?%elem_of_nil]|].
    destruct IH as [?|(K & HK & HK')]; [set_solver|by left|].
    destruct (decide (a = a0)) as [->|Hne].
    - right. exists K. split; [done|]. intros a [->|Ha]%elem_of_cons Hne'; [done|by apply HK'].
    - destruct (Hcnt a) as [?|(k & Hk)]; [set_solver|done|by left|]. right. exists (S (K + k)). split; [lia|].
      intros a' [->|Ha]%elem_of_cons Hne'; [exists k; split; [lia|done]|]. destruct (HK' _ Ha Hne') as (k' & ? & ?). exists k'. split; [lia|done]. }
  (* its own next choke is one too many *)
  destruct (Hchoke a0 K Ha0) as [?|(j & e & lr & s & o & r & sc & HKj & Elg & Ho & Hbr & E1 & E2 & E3)]; [lia|done|].
  destruct (Hlow a0 Ha0) as (log0 & Hrun0 & Hlow').
  pose proof (upto_runs _ _ _ _ _ _ _ _ _ _ Hex log0 (S j) Hrun0) as Hrun. simpl in Hrun. rewrite Elg in Hrun.
  destruct (Hin_round a0 j Ha0) as [?|[Hpr _]]; [lia|done|]. pose proof (not_outp _ _ _ _ Ho) as ((N1 & N1' & N1'') & N2 & N3).
  assert (s = nd_st (x a0 j)) as ->.
  { destruct (ex_state _ _ _ _ _ _ _ _ _ _ _ Hex Hf Hb j) as [(e1 & inp1 & o1 & r1 & n1 & E & _)|(Hno & _)]; [|exfalso; eapply Hno; rewrite Elg; by left].
    rewrite Elg in E. by injection E. }
  destruct (C60_chokes_end_the_round lc tenc tdec spill (cr a0) (b a0) (cfg a0) _ _ (upto (lg a0) log0 j) e (IEvent (EvBrake h rd lr)) (nd_st (x a0 j)) o r [] Q Hrun) as (k & Hk & Hk64 & Ht); try done.
  - by rewrite app_nil_r.
  - exists sc. by right.
  - by apply Hlen.
  - rewrite N2, Hpr. intros a Ha. destruct (decide (a = a0)) as [->|Hne].
    + exists sc. split_and!; try done. right.
      rewrite actions_app. apply elem_of_app. right. unfold actions. simpl. rewrite app_nil_r.
      destruct (ex_state _ _ _ _ _ _ _ _ _ _ _ Hex Hf Hb j) as [(e1 & inp1 & o1 & r1 & n1 & E & _ & Hre & _)|(Hno & _)]; [|exfalso; eapply Hno; rewrite Elg; by left].
      rewrite Elg in E. injection E as -> <- -> ->. by destruct (choke_broadcast_step _ _ _ _ _ _ _ _ _ Hre Hbr) as (_ & _ & ? & _).
    + destruct (Hall a Ha Hne) as (k & Hk & e1 & sc1 & s1 & o1 & r1 & Elg1 & F1 & F2 & F3 & F4 & F5). exists sc1. split_and!; try done. left.
      exists e1, s1, o1, r1. split_and!; try done. apply elem_of_app. left. apply (upto_in _ _ k); [lia|]. rewrite Elg1. by left.
  - intros sc1 Hsc1. apply Hlow', (upto_chokes (lg a0) log0 (S j)). simpl. by rewrite Elg.
  - eapply (V2 j). rewrite Elg. by left.
  - rewrite Hpr in Hk.
    destruct (C60_the_next_round_is_entered _ _ _ _ _ _ _ _ _ _ _ Hex Hf Hb j _ _ _ _ _ k Elg Ht) as (j' & Hj' & Hc); try done; [by rewrite N2|congruence|lia|].
    destruct (decide (outp (x a0) h rd j')) as [Ho'|Ho']; [apply (HG a0 j'); [done|lia|done]|].
    destruct (Hin_round a0 j' Ha0) as [?|[Hpr' _]]; [lia|done|]. apply not_outp in Ho' as (_ & Ho' & _). rewrite N2, Ho', Hpr' in Hc. lia.
Qed.
End C63.
Print Assumptions C63_validators_do_not_stay_in_a_round.
