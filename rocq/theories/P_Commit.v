(** * P_Commit: quorums whose votes reach one validator are answered and decide (C65, C66). *)
From Verif Require Export P_Together P_Answer P_Locked.
From Verif Require Import AuthProofs P_Cert.
Set Default Proof Using "Type".

(** ** Two lists that make the same list of validators *)
Lemma same_auth l l' : distinct l -> auth_update l = auth_update l' -> distinct l' /\ (forall who, weight_of who l = weight_of who l') /\ total_weight l = total_weight l'.
Proof.
  intros Hd E. assert (n_addr <$> l ≡ₚ n_addr <$> l') as Hp.
  { rewrite <-(ksort_perm n_addr l), <-(ksort_perm n_addr l'), <-!auth_update_addr. by rewrite E. }
  assert (distinct l') as Hd' by (unfold distinct in *; by rewrite <-Hp).
  assert (forall (g : bytes -> bool) k, distinct k -> weight_where g k = sumN (fun a => if g a then default 0 (a_vmap (auth_update k) !! a) else 0) (n_addr <$> k)) as Hw.
  { intros g k Hk. rewrite sumN_fmap. apply sumN_ext. intros y Hy. by rewrite (auth_update_vmap k y Hk Hy). }
  assert (forall g, weight_where g l = weight_where g l') as Hall.
  { intros g. rewrite (Hw g l Hd), (Hw g l' Hd'), E. by apply sumN_perm. }
  split; [done|]. split; [intros who; apply Hall|].
  exact (Hall (fun _ => true)).
Qed.

Section X.
Context {T : Type} `{EqDecision T}.
Context (lc : lcfg) (tenc : T -> bytes) (tdec : bytes -> option T) (spill : bool) (cr : crypto).
Context (b : boot T) (cfg : option durcfg) (w : option (walinfo T)).
Context (x : nat -> node T) (lab : nat -> option (label T)) (lg : nat -> list (nlog T)).
Context (Hex : execution lc tenc tdec spill cr b cfg x lab lg) (Hfair : fair x lab lg) (Hboot : boots tdec spill b w).

(** ** Specification *)
(** At the [k]-th step the instance, at height [h] and round [rd], takes or casts a vote of [a] of
    type [t] for [y]. *)
Definition gathers (h rd : N) (t : vtype) (y a : bytes) (k : nat) : Prop :=
  exists e i s o r v, lg k = [NState e i s o r] /\ s_height s = h /\ s_round s = rd /\ s_power s = true /\
    sv_voter v = a /\ sv_vote v = mkVote h rd t y /\ (i = IMsg (MVote v) \/ AOwnVote v ∈ o).
(** It broadcasts a certificate for [y] at its [j]-th step. *)
Definition certifies (h rd : N) (t : vtype) (y : bytes) (j : nat) (q : aggvote) : Prop :=
  exists e i s o r, lg j = [NState e i s o r] /\ s_height s = h /\ s_round s = rd /\ s_power s = true /\
    (forall rs, i <> IResp rs) /\ ABroadcast (MAgg q) ∈ o /\ to_vote q = mkVote h rd t y.
(** A certificate of that height, round and type came from outside: in a message, or in the record
    the instance started from. *)
Definition foreign (log : list (nlog T)) (h rd : N) (t : vtype) : Prop :=
  exists q, (av_height q, av_round q, av_type q) = (h, rd, t) /\
    (treated_at log h (MAgg q) \/
     (exists sc, treated_at log h (MChoke sc) /\ (ck_from (sc_choke sc) = UFPrevote q \/ ck_from (sc_choke sc) = UFPrecommit q)) \/
     exists w l, boot_wal tdec spill (boot_at b) w /\ wi_lock w = Some l /\ wl_votes l = q).

Lemma upto_le log0 j k g : (j <= k)%nat -> g ∈ upto lg log0 j -> g ∈ upto lg log0 k.
Proof. intros Hjk. induction Hjk as [|k Hjk IH]; [done|]. intros Hg. simpl. apply elem_of_app. left. auto. Qed.
Lemma upto_where log0 j g : g ∈ upto lg log0 j -> g ∈ log0 \/ exists i, (i < j)%nat /\ g ∈ lg i.
Proof.
  induction j as [|j IH]; [by left|]. simpl. intros [Hg|Hg]%elem_of_app.
  - destruct (IH Hg) as [?|(i & ? & ?)]; [by left|right; exists i; split; [lia|done]].
  - right. exists j. split; [lia|done].
Qed.
Lemma seen_where log0 j v : seen (upto lg log0 j) v -> seen log0 v \/ exists i, seen (lg i) v.
Proof.
  induction j as [|j IH]; [auto|]. simpl. unfold seen at 1. rewrite actions_app. intros [(e & s & o & r & [Hin|Hin]%elem_of_app)|[Hin|Hin]%elem_of_app].
  - apply IH. left. eauto 10.
  - right. exists j. left. eauto 10.
  - apply IH. by right.
  - right. exists j. by right.
Qed.

(** The certificate an instance makes says what the members of a quorum that only voted one thing voted. *)
Lemma made_for log n e i s o r q l Q t y n' lb :
  noderun lc tenc tdec spill cr b cfg log n -> nstep lc tenc cr lb n = Some (n', [NState e i s o r]) ->
  ABroadcast (MAgg q) ∈ o ->
  s_auth s = auth_update l -> distinct l -> total_weight l < 2 ^ 32 -> 3 * weight_of Q l > 2 * total_weight l ->
  av_height q = s_height s -> av_type q = t ->
  (forall v, seen (log ++ [NState e i s o r]) v -> sv_voter v ∈ Q -> v_height (sv_vote v) = s_height s -> v_round (sv_vote v) = av_round q ->
     v_type (sv_vote v) = t -> v_hash (sv_vote v) = y) -> to_vote q = mkVote (s_height s) (s_round s) t y.
Proof.
  intros Hrun Hst Hb Ea Hd Ht Hw Eh Et Hhon.
  assert (s = nd_st n /\ nd_on n = true /\ exists s', react lc tenc e i s = (s', o, r)) as (-> & Hon & s' & Hre).
  { apply nstep_cases in Hst as [(e0 & i0 & s' & o0 & r0 & Hon & Hre & _ & _ & E)|(_ & _ & Hi & _)]; [|done].
    injection E as -> <- -> -> ->. eauto. }
  pose proof (noderun_run _ _ _ _ _ _ _ _ _ Hrun) as Hr. rewrite Hon in Hr.
  destruct (C39_certificate_backed_by_votes _ _ _ _ _ _ _ _ _ _ _ _ _ _ Hr Hre Hb) as (_ & Er & _ & l' & vs & Ea' & _ & Hvs & _ & _ & Hq).
  assert (auth_update l = auth_update l') as El by congruence.
  destruct (same_auth l l' Hd El) as (Hd' & Hwl & Htl). destruct (Hq Hd' ltac:(lia)) as (Hwq & _).
  rewrite <-Hwl, <-Htl in Hwq.
  destruct (quorum_intersection l (fun a => bool_decide (a ∈ Q)) (fun a => bool_decide (a ∈ sv_voter <$> vs)) (fun _ => false)) as (nd & _ & H1 & H2 & _).
  { unfold weight_of in Hw. lia. } { unfold weight_of in Hwq. lia. }
  { assert (weight_where (fun _ => false) l = 0) as ->; [|pose proof (weight_of_le Q l); lia]. unfold weight_where. clear. induction l as [|? ? IH]; [done|exact IH]. }
  apply bool_decide_eq_true in H1. apply bool_decide_eq_true in H2. apply elem_of_list_fmap in H2 as (v & Ev & Hv).
  destruct (Hvs v Hv) as (Hk & Evo & _).
  assert (seen (log ++ [NState e i (nd_st n) o r]) v) as Hseen.
  { destruct Hk as [[e1 Hk]|Hk]; [left|right].
    - apply elem_of_app in Hk as [Hk|Hk].
      + unfold inputs in Hk. apply elem_of_list_omap in Hk as (g & Hg & E). destruct g as [| |e0 i0 s0 o0 r0| | | | | |]; try done. injection E as -> ->.
        exists e1, s0, o0, r0. apply elem_of_app. by left.
      + apply elem_of_list_singleton in Hk. injection Hk as -> <-. exists e, (nd_st n), o, r. apply elem_of_app. right. by apply elem_of_list_singleton.
    - rewrite actions_app. apply elem_of_app in Hk as [Hk|Hk]; apply elem_of_app; [by left|right]. unfold actions. simpl. by rewrite app_nil_r. }
  rewrite Ev in H1. pose proof (Hhon v Hseen H1) as Hx. rewrite Evo in Hx. unfold to_vote in *. simpl in Hx. rewrite Eh, Er, Et. rewrite <-(Hx Eh eq_refl Et). done.
Qed.
Lemma made_pos log n e i s o r q n' lb :
  noderun lc tenc tdec spill cr b cfg log n -> nstep lc tenc cr lb n = Some (n', [NState e i s o r]) ->
  ABroadcast (MAgg q) ∈ o -> av_height q = s_height s /\ av_round q = s_round s.
Proof.
  intros Hrun Hst Hb.
  apply nstep_cases in Hst as [(e0 & i0 & s' & o0 & r0 & Hon & Hre & _ & _ & E)|(_ & _ & Hi & _)]; [|done].
  injection E as -> <- -> -> ->.
  pose proof (noderun_run _ _ _ _ _ _ _ _ _ Hrun) as Hr. rewrite Hon in Hr.
  destruct (C39_certificate_backed_by_votes _ _ _ _ _ _ _ _ _ _ _ _ _ _ Hr Hre Hb) as (? & ? & _). done.
Qed.

(** What answers a check, and what reaches a node that is no validator, makes no certificate. *)
Definition noagg (_ : st T) (o : list (action T)) (_ : st T) : Prop :=
  Forall (fun a => match a with ABroadcast (MAgg _) => False | _ => True end) o.
Lemma noagg_comp : comp noagg.
Proof. clear. split; [intros s0; by apply Forall_nil|intros s1 s2 s3 o1 o2 H1 H2; by apply Forall_app]. Qed.
Lemma noagg_goto e stt : keeps noagg (goto_new_height (T:=T) e stt).
Proof.
  clear. intros s s' o r Hg.
  apply goto_inv in Hg as [(_ & _ & -> & _)|[(_ & _ & _ & -> & _)|[(_ & _ & _ & -> & _)|(_ & _ & _ & tr & -> & Ht)]]]; try by repeat constructor.
  constructor; [done|]. apply Forall_app. split; [apply Forall_fmap, Forall_true; done|]. destruct Ht as [[-> _]|[-> _]]; by repeat constructor.
Qed.
Lemma noagg_resp e rs : keeps noagg (react lc tenc e (IResp rs)).
Proof.
  clear. apply (keeps_react lc tenc _ noagg_comp); [by intros|by intros| |by intros].
  intros r0 _. unfold handle_resp. keeps_go noagg_comp; by repeat constructor.
Qed.
Lemma agg_made_by e i s s' o r q : react lc tenc e i s = (s', o, r) -> ABroadcast (MAgg q) ∈ o ->
  s_power s = true /\ forall rs, i <> IResp rs.
Proof.
  clear Hex Hfair Hboot. intros Hr Hb. split.
  - destruct (s_power s) eqn:Hp; [done|exfalso].
    assert ((exists stt, i = IMsg (MStatus stt)) \/ forall stt, i <> IMsg (MStatus stt)) as [[stt ->]|Hi].
    { destruct i as [| | |m]; try (right; by intros). destruct m; try (right; by intros). left. by eexists. }
    + assert (keeps noagg (react lc tenc e (IMsg (MStatus stt)))) as Hk.
      { apply (keeps_react lc tenc _ noagg_comp); [|by intros..]. intros m [= <-]. apply (keeps_on_msg _ _ noagg_comp); [repeat constructor; done|].
        pose proof noagg_goto. unfold handle_msg. keeps_go noagg_comp; repeat constructor; done. }
      apply Hk in Hr. apply (proj1 (Forall_forall _ _) Hr) in Hb. done.
    + destruct (C43_silent_unless_validator lc tenc _ _ _ _ _ _ Hp Hi Hr) as (_ & [->|(m & _ & [->|(a & ->)])]).
      * by apply elem_of_nil in Hb. * by apply elem_of_list_singleton in Hb. * by apply elem_of_list_singleton in Hb.
  - intros rs ->. apply noagg_resp in Hr. apply (proj1 (Forall_forall _ _) Hr) in Hb. done.
Qed.

Lemma entry_at j e i s o r : NState e i s o r ∈ lg j ->
  lg j = [NState e i s o r] /\ s = nd_st (x j) /\ react lc tenc e i s = (nd_st (x (S j)), o, r).
Proof using Type Hex Hfair Hboot.
  intros Hin. destruct (ex_state _ _ _ _ _ _ _ _ _ _ _ Hex Hfair Hboot j) as [(e1 & i1 & o1 & r1 & n1 & E & _ & Hr & _)|(Hno & _)]; [|by apply Hno in Hin].
  rewrite E in Hin. apply elem_of_list_singleton in Hin. injection Hin as -> -> -> -> ->. done.
Qed.
Lemma action_at j a : a ∈ actions (lg j) -> exists e i s o r, lg j = [NState e i s o r] /\ a ∈ o.
Proof using Type Hex.
  intros Ha. pose proof (ex_step _ _ _ _ _ _ _ _ _ _ Hex j) as Hs. destruct (lab j) as [lb|].
  2: { destruct Hs as [_ E]. rewrite E in Ha. by apply elem_of_nil in Ha. }
  apply nstep_cases in Hs as [(e0 & i0 & s' & o0 & r0 & _ & _ & _ & _ & E)|(_ & _ & _ & E)].
  - rewrite E in Ha |- *. unfold actions in Ha. simpl in Ha. rewrite app_nil_r in Ha. do 5 eexists. split; [reflexivity|done].
  - rewrite E in Ha. by apply elem_of_nil in Ha.
Qed.
Lemma upto_action log0 j a : a ∈ actions (upto lg log0 j) -> a ∈ actions log0 \/ exists k, (k < j)%nat /\ a ∈ actions (lg k).
Proof using Type.
  induction j as [|j IH]; [by left|]. simpl. rewrite actions_app. intros [Ha|Ha]%elem_of_app.
  - destruct (IH Ha) as [?|(k & ? & ?)]; [by left|right; exists k; split; [lia|done]].
  - right. exists j. split; [lia|done].
Qed.
Lemma upto_action_in log0 j k a : (k < j)%nat -> a ∈ actions (lg k) -> a ∈ actions (upto lg log0 j).
Proof using Type.
  intros Hkj Ha. induction Hkj as [|j Hkj IH]; simpl; rewrite actions_app; apply elem_of_app; [by right|by left].
Qed.
(** The last of them *)
Lemma last_gathered h rd t y Q : Q <> [] -> (forall a, a ∈ Q -> exists k, gathers h rd t y a k) ->
  exists K a0, a0 ∈ Q /\ gathers h rd t y a0 K /\ forall a, a ∈ Q -> exists k, (k <= K)%nat /\ gathers h rd t y a k.
Proof using Type.
  induction Q as [|a Q IH]; [done|]. intros _ HQ. destruct (HQ a) as [ka Hka]; [left|].
  destruct Q as [|a' Q].
  { exists ka, a. split; [left|]. split; [done|]. intros a1 ->%elem_of_list_singleton. by exists ka. }
  destruct IH as (K & a0 & H1 & H2 & H3); [done|intros a1 Ha1; apply HQ; by right|].
  destruct (le_lt_dec ka K) as [Hle|Hlt].
  - exists K, a0. split; [by right|]. split; [done|]. intros a1 [->|Ha1]%elem_of_cons; [by exists ka|by apply H3].
  - exists ka, a. split; [left|]. split; [done|]. intros a1 [->|Ha1]%elem_of_cons; [by exists ka|].
    destruct (H3 a1 Ha1) as (k & ? & ?). exists k. split; [lia|done].
Qed.

(** What is supposed of the collecting instance: [l] is the list in force at height [h], the instance
    is in it, no record was lost, and it made no certificate of this position before. *)
Record collects (log0 : list (nlog T)) (l : list vnode) (h rd : N) (t : vtype) : Prop := mkCollects {
  co_run : noderun lc tenc tdec spill cr b cfg log0 (x 0%nat);
  co_save : forall j w, ASave w false ∉ actions (upto lg log0 j);
  co_force : forall j, in_force_at l h (upto lg log0 j);
  co_dist : distinct l;
  co_total : total_weight l < 2 ^ 32;
  co_in : b_addr b ∈ n_addr <$> l;
  co_none : forall q, ABroadcast (MAgg q) ∈ actions log0 -> (av_height q, av_round q, av_type q) <> (h, rd, t);
  co_agg : forall j e i s o r, NState e i s o r ∈ lg j -> forall sigs who, is_Some (cr_aggregate (e_crypto e) sigs who) }.
(** More than two thirds of the weight vote for [y] and for nothing else, and the instance takes all
    these votes in their round. *)
Definition gathered (log0 : list (nlog T)) (l : list vnode) (h rd : N) (t : vtype) (y : bytes) (Q : list bytes) : Prop :=
  3 * weight_of Q l > 2 * total_weight l /\
  (forall a, a ∈ Q -> a ∈ n_addr <$> l /\ exists k, gathers h rd t y a k) /\
  (forall v, seen log0 v \/ (exists j, seen (lg j) v) -> sv_voter v ∈ Q ->
     v_height (sv_vote v) = h -> v_round (sv_vote v) = rd -> v_type (sv_vote v) = t -> v_hash (sv_vote v) = y).
Lemma quorum_gathered log0 l h rd t y Q :
  h + FUTURE_HEIGHT_GAP < 2 ^ 64 -> rd + FUTURE_ROUND_GAP < 2 ^ 64 ->
  collects log0 l h rd t -> gathered log0 l h rd t y Q ->
  exists j, foreign (upto lg log0 j) h rd t \/ exists q, certifies h rd t y j q.
Proof using Type Hex Hfair Hboot.
  intros Hh64 Hr64 [C1 C2 C3 C4 C5 C6 C7 C8] (Hw & HQ & Hhon).
  assert (Q <> []) as Hne. { intros ->. rewrite weight_of_nil in Hw. lia. }
  destruct (last_gathered h rd t y Q Hne (fun a Ha => proj2 (HQ a Ha))) as (K & a0 & Ha0 & HK & Hall).
  destruct HK as (e & i & s & o & r & v0 & Elg & Es & Er & Hp & Ev & Evo & Hin0).
  pose proof (upto_runs _ _ _ _ _ _ _ _ _ _ Hex log0 (S K) C1) as Hrun. simpl in Hrun. rewrite Elg in Hrun.
  assert (forall v, seen (upto lg log0 (S K)) v -> sv_voter v ∈ Q -> v_height (sv_vote v) = h -> v_round (sv_vote v) = rd -> v_type (sv_vote v) = t -> v_hash (sv_vote v) = y) as Hhon'.
  { intros v Hs. apply Hhon. by apply (seen_where log0 (S K)). }
  destruct (C54_quorums_are_certified lc tenc tdec spill cr b cfg _ _ (upto lg log0 K) e i s o r [] l t y Q Hrun) as [(q & Hq & Epos)|(q & Hbr & Evt & _)]; try done.
  - by rewrite app_nil_r.
  - intros w0 Hin. apply (C2 (S K) w0). simpl. by rewrite Elg.
  - rewrite Es. specialize (C3 (S K)). simpl in C3. by rewrite Elg in C3.
  - split; [by rewrite Es|by rewrite Er].
  - exists v0. rewrite Evo. simpl. split; [done|]. destruct Hin0 as [->|Hin0]; [left|by right].
    rewrite Es, Er, Ev. split_and!; try done. by apply HQ.
  - intros a Ha. split; [by apply HQ|]. split.
    + destruct (Hall a Ha) as (k & HkK & (e1 & i1 & s1 & o1 & r1 & v1 & Elg1 & Es1 & Er1 & _ & Ev1 & Evo1 & Hin1)).
      exists v1. rewrite Es, Er. split; [done|]. split; [done|]. destruct Hin1 as [->|Hin1]; [left|right].
      * exists e1, s1, o1, r1. split; [|split; [by rewrite Evo1|rewrite Evo1, Er1; simpl; lia]].
        replace (upto lg log0 K ++ _) with (upto lg log0 (S K)) by (simpl; by rewrite Elg).
        apply (upto_in _ _ k); [lia|]. rewrite Elg1. by left.
      * replace (upto lg log0 K ++ _) with (upto lg log0 (S K)) by (simpl; by rewrite Elg).
        apply (upto_action_in _ _ k); [lia|]. rewrite Elg1. unfold actions. simpl. by rewrite app_nil_r.
    + rewrite Es, Er. intros v Hs Hv. apply Hhon'; [|by rewrite Hv]. simpl. by rewrite Elg.
  - eapply (C8 K). rewrite Elg. by left.
  - rewrite Es, Er in *. destruct Hq as [Hq|[Hq|[Hq|Hq]]]; [exists K; left; exists q; auto..| |exists K; left; exists q; auto].
    apply upto_action in Hq as [Hq|(k & HkK & Hq)]; [by destruct (C7 q Hq)|].
    destruct (action_at k _ Hq) as (e1 & i1 & s1 & o1 & r1 & Elg1 & Hb1).
    destruct (entry_at k e1 i1 s1 o1 r1) as (_ & -> & Hre1); [rewrite Elg1; by left|].
    destruct (agg_made_by _ _ _ _ _ _ _ Hre1 Hb1) as [Hp1 Hn1].
    pose proof (upto_runs _ _ _ _ _ _ _ _ _ _ Hex log0 k C1) as Hrun1.
    pose proof (ex_step _ _ _ _ _ _ _ _ _ _ Hex k) as Hst. destruct (lab k) as [lb|]; [|destruct Hst as [_ Hst]; congruence]. rewrite Elg1 in Hst.
    destruct (made_pos _ _ _ _ _ _ _ _ _ _ Hrun1 Hst Hb1) as [P1 P2]. injection Epos as Q1 Q2 Q3.
    exists k. right. exists q. exists e1, i1, (nd_st (x k)), o1, r1. split_and!; try done; try congruence.
    assert (s_height (nd_st (x k)) = h) as Eh1 by congruence. assert (s_round (nd_st (x k)) = rd) as Er1 by congruence.
    rewrite <-Eh1, <-Er1. eapply (made_for _ _ _ _ _ _ _ _ l Q t y _ _ Hrun1 Hst Hb1); try done; try congruence.
    + eapply (C3 (S k)); [simpl; apply elem_of_app; right; rewrite Elg1; by left|done].
    + rewrite P2, Eh1, Er1. intros v Hs. apply Hhon. apply (seen_where log0 (S k)). simpl. by rewrite Elg1.
  - exists K. right. exists q. exists e, i, s, o, r. rewrite Es, Er in *. split_and!; try done.
    destruct (ex_state _ _ _ _ _ _ _ _ _ _ _ Hex Hfair Hboot K) as [(e1 & i1 & o1 & r1 & n1 & E & _ & Hre & _)|(Hno & _)]; [|exfalso; eapply Hno; rewrite Elg; by left].
    rewrite Elg in E. injection E as -> -> -> -> ->. by destruct (agg_made_by _ _ _ _ _ _ _ Hre Hbr).
Qed.
End X.

(** ** Specification *)
Section C65.
Context {T : Type} `{EqDecision T}.
Context (lc : lcfg) (tenc : T -> bytes) (tdec : bytes -> option T) (spill : bool).
(** Validators on one clock, as in C63: [x a j] is the instance of validator [a] at time [j]. *)
Context (cr : bytes -> crypto) (b : bytes -> boot T) (cfg : bytes -> option durcfg) (w : bytes -> option (walinfo T)).
Context (x : bytes -> nat -> node T) (lab : bytes -> nat -> option (label T)) (lg : bytes -> nat -> list (nlog T)).
Local Notation runs a := (execution lc tenc tdec spill (cr a) (b a) (cfg a) (x a) (lab a) (lg a) /\
  fair (x a) (lab a) (lg a) /\ boots tdec spill (b a) (w a)).

(** The certificate [q], made by [ld] at time [j], gets to [a] at time [k]: it is treated there, or
    [a] made it. *)
Definition gets (ld a : bytes) (j k : nat) (q : aggvote) : Prop :=
  (a = ld /\ k = j) \/ (j <= k)%nat /\ exists e s o r, lg a k = [NState e (IMsg (MAgg q)) s o r].
(** Certificates that [ld] makes for this position get to all of [C]. *)
Definition certs_arrive (ld : bytes) (C : list bytes) (h rd : N) (t : vtype) (y : bytes) : Prop :=
  forall a j q, a ∈ C -> certifies (lg ld) h rd t y j q -> exists k, gets ld a j k q.
(** The instance is a validator at height [h] and has checked the block [y]; its state machine has
    come to this height. *)
Definition checked_at (h : N) (y : bytes) (n : node T) : Prop :=
  s_height (nd_st n) = h /\ s_power (nd_st n) = true /\ s_full (nd_st n) !! y = Some true /\
  is_Some (s_blocks (nd_st n) !! y) /\ m_height (nd_smr n) = h.
(** After time [k], [a] calls [commit] with a proof for [y] at height [h]. *)
Definition commits (a : bytes) (h : N) (y : bytes) (k : nat) : Prop :=
  exists j e i s o r c, (k < j)%nat /\ lg a j = [NState e i s o r] /\ ACommit h c ∈ o /\ pf_hash (c_proof c) = y.
(** What can keep it from that: it is told of a later height, it was ordered to commit another
    block, or the record of the decision cannot be written. *)
Definition commit_hindered (a : bytes) (h : N) (y : bytes) (k : nat) : Prop :=
  exists j, (k < j)%nat /\
    (h < s_height (nd_st (x a j)) \/
     exists e z s o r, lg a j = [NState e (IEvent (EvCommit z)) s o r] /\ s_height s = h /\
       (z <> y \/ exists w, ASave w false ∈ o /\ wi_height w = h /\ wi_step w = SCommit)).
(** After time [k], [a] casts its precommit of round [rd] of height [h] for [y]. *)
Definition precommits (a : bytes) (h rd : N) (y : bytes) (k : nat) : Prop :=
  exists j e i s o r v, (k < j)%nat /\ lg a j = [NState e i s o r] /\ v ∈ o /\ vote_of v = Some (mkVote h rd Precommit y).
(** What can keep it from that: it is told of a later height; another trigger (a timeout, a
    certificate of a later round, enough chokes) takes its state machine out of the propose and the
    prevote step of the round; the record of the vote cannot be written; or it has another
    certificate of this round's prevotes. *)
Definition precommit_hindered (a : bytes) (h rd : N) (y : bytes) (k : nat) : Prop :=
  exists j, (k < j)%nat /\
    (h < s_height (nd_st (x a j)) \/
     (exists t m m' o r, lg a j = [NSmr t m o r] /\ smr_step open_chans t m = (m', o, r) /\ undecided h rd m /\ ~ undecided h rd m' /\
        ~ (t_type t = TPrevoteQC /\ t_src t = SrcState /\ t_height t = h /\ t_round t = rd /\ t_hash t = y)) \/
     (exists e s o r, lg a j = [NState e (IEvent (EvPrecommit h rd y (Some rd))) s o r] /\
        ((exists w, ASave w false ∈ o) \/ exists q, vc_get_qc_by_id (s_votes s) h rd Prevote = Ok q /\ av_hash q <> y))).

Lemma certified_at a k j q h rd t y (ld : bytes) :
  runs a -> certifies (lg ld) h rd t y j q -> gets ld a j k q -> s_height (nd_st (x a k)) = h ->
  exists e i s o r, lg a k = [NState e i s o r] /\ s = nd_st (x a k) /\ to_vote q = mkVote h rd t y /\
    (i = IMsg (MAgg q) \/ (forall rs, i <> IResp rs) /\ ABroadcast (MAgg q) ∈ o).
Proof.
  intros (Hex & Hf & Hb) (e & i & s & o & r & Elg & Es & Er & _ & Hi & Hbr & Eq) Hg Hh.
  destruct Hg as [[-> ->]|(_ & e1 & s1 & o1 & r1 & Elg1)].
  - exists e, i, s, o, r. split; [done|]. split; [|auto]. eapply (entry_at _ _ _ _ _ _ _ _ _ _ _ Hex Hf Hb). rewrite Elg. by left.
  - exists e1, (IMsg (MAgg q)), s1, o1, r1. split; [done|]. split; [|auto]. eapply (entry_at _ _ _ _ _ _ _ _ _ _ _ Hex Hf Hb). rewrite Elg1. by left.
Qed.
Lemma answers_commit a ld k j q h rd y : 0 < h -> y <> [] -> runs a -> certifies (lg ld) h rd Precommit y j q -> gets ld a j k q ->
  checked_at h y (x a k) -> m_step (nd_smr (x a k)) <> SCommit -> commits a h y k \/ commit_hindered a h y k.
Proof.
  intros Hh Hy Hruns Hq Hg (R1 & R2 & R3 & R4 & R5) R6.
  destruct (certified_at _ _ _ _ _ _ _ _ _ Hruns Hq Hg R1) as (e & i & s & o & r & Elg & -> & Eq & Hi). destruct Hruns as (Hex & Hf & Hb).
  unfold to_vote in Eq. injection Eq as E1 E2 E3 E4.
  destruct (C53_decided_blocks_are_committed _ _ _ _ _ _ _ _ _ _ _ Hex Hf Hb _ _ _ _ _ _ y Elg) as (j' & Hj & [Hgt|(e' & z & s' & o' & r' & El & Es & [Hz|[Hs|(c & Hc & Ep)]])]); try done.
  - left. exists q. split; [destruct Hi as [->|Hi]; [left; split; [done|congruence]|by right]|]. done.
  - by rewrite R1.
  - by rewrite R1.
  - right. exists j'. split; [done|]. left. by rewrite R1 in Hgt.
  - right. exists j'. split; [done|]. right. exists e', z, s', o', r'. split_and!; [done|congruence|by left].
  - right. exists j'. split; [done|]. right. exists e', z, s', o', r'. split_and!; [done|congruence|right]. by rewrite R1 in Hs.
  - left. exists j'. do 5 eexists. exists c. split; [done|]. split; [exact El|]. by rewrite R1 in Hc.
Qed.
Lemma answers_prevotes a ld k j q h rd y : 0 < h -> y <> [] -> runs a -> P_Answer.signs (lg a) ->
  certifies (lg ld) h rd Prevote y j q -> gets ld a j k q ->
  checked_at h y (x a k) -> s_round (nd_st (x a k)) <= rd -> undecided h rd (nd_smr (x a k)) -> precommits a h rd y k \/ precommit_hindered a h rd y k.
Proof.
  intros Hh Hy Hruns Hsg Hq Hg (R1 & R2 & R3 & R4 & R5) R6 R7.
  destruct (certified_at _ _ _ _ _ _ _ _ _ Hruns Hq Hg R1) as (e & i & s & o & r & Elg & -> & Eq & Hi). destruct Hruns as (Hex & Hf & Hb).
  unfold to_vote in Eq. injection Eq as E1 E2 E3 E4.
  destruct (C57_prevote_certificates_are_answered _ _ _ _ _ _ _ _ _ _ _ Hex Hf Hb Hsg _ _ _ _ _ _ h rd y Elg) as (j' & Hj & [Hgt|[Hc|(e' & s' & o' & r' & El & [Hs|[Hs|(v & Hv & Ev)]])]]); try done.
  - left. exists q. split; [destruct Hi as [->|Hi]; [left; split_and!; [done|congruence|done]|by right]|]. done.
  - right. exists j'. split; [done|]. by left.
  - right. exists j'. split; [done|]. right. left. exact Hc.
  - right. exists j'. split; [done|]. right. right. exists e', s', o', r'. split; [done|]. by left.
  - right. exists j'. split; [done|]. right. right. exists e', s', o', r'. split; [done|]. by right.
  - left. exists j'. do 5 eexists. exists v. split; [done|]. split; [exact El|]. done.
Qed.

(** C65. Let [ld] be the validator who collects the votes of round [rd] of height [h], and let more
    than two thirds of the weight of the list in force prevote for the block [y] and nothing else,
    all these votes reaching [ld] in the round. Then [ld] makes a certificate for [y] at some time,
    unless it got one from outside; and everybody it gets to who checked the block and is before the
    precommit step of the round casts its precommit for [y], unless hindered. *)
Theorem C65_prevote_quorums_are_answered ld C log0 l h rd y Q :
  0 < h -> h + FUTURE_HEIGHT_GAP < 2 ^ 64 -> rd + FUTURE_ROUND_GAP < 2 ^ 64 -> y <> [] ->
  runs ld -> (forall a, a ∈ C -> runs a /\ P_Answer.signs (lg a)) ->
  collects lc tenc tdec spill (cr ld) (b ld) (cfg ld) (x ld) (lg ld) log0 l h rd Prevote ->
  gathered (lg ld) log0 l h rd Prevote y Q -> certs_arrive ld C h rd Prevote y ->
  (exists j, foreign tdec spill (b ld) (upto (lg ld) log0 j) h rd Prevote) \/
  exists j q, certifies (lg ld) h rd Prevote y j q /\
    forall a, a ∈ C -> exists k, gets ld a j k q /\
      (checked_at h y (x a k) -> s_round (nd_st (x a k)) <= rd -> undecided h rd (nd_smr (x a k)) ->
       precommits a h rd y k \/ precommit_hindered a h rd y k).
Proof.
  intros Hh H1 H2 Hy Hld HC Hco Hga Harr. destruct Hld as (Hex & Hf & Hb).
  destruct (quorum_gathered _ _ _ _ _ _ _ _ _ _ _ Hex Hf Hb _ _ _ _ _ _ _ H1 H2 Hco Hga) as (j & [Hfo|(q & Hq)]); [left; by exists j|right].
  exists j, q. split; [done|]. intros a Ha. destruct (Harr a j q Ha Hq) as (k & Hk). exists k. split; [done|]. intros.
  destruct (HC a Ha). by eapply answers_prevotes.
Qed.
(** The same for precommits: everybody the certificate gets to who checked the block and did not
    decide yet commits [y]. *)
Theorem C65_precommit_quorums_decide ld C log0 l h rd y Q :
  0 < h -> h + FUTURE_HEIGHT_GAP < 2 ^ 64 -> rd + FUTURE_ROUND_GAP < 2 ^ 64 -> y <> [] ->
  runs ld -> (forall a, a ∈ C -> runs a) ->
  collects lc tenc tdec spill (cr ld) (b ld) (cfg ld) (x ld) (lg ld) log0 l h rd Precommit ->
  gathered (lg ld) log0 l h rd Precommit y Q -> certs_arrive ld C h rd Precommit y ->
  (exists j, foreign tdec spill (b ld) (upto (lg ld) log0 j) h rd Precommit) \/
  exists j q, certifies (lg ld) h rd Precommit y j q /\
    forall a, a ∈ C -> exists k, gets ld a j k q /\
      (checked_at h y (x a k) -> m_step (nd_smr (x a k)) <> SCommit -> commits a h y k \/ commit_hindered a h y k).
Proof.
  intros Hh H1 H2 Hy Hld HC Hco Hga Harr. destruct Hld as (Hex & Hf & Hb).
  destruct (quorum_gathered _ _ _ _ _ _ _ _ _ _ _ Hex Hf Hb _ _ _ _ _ _ _ H1 H2 Hco Hga) as (j & [Hfo|(q & Hq)]); [left; by exists j|right].
  exists j, q. split; [done|]. intros a Ha. destruct (Harr a j q Ha Hq) as (k & Hk). exists k. split; [done|]. intros.
  pose proof (HC a Ha). by eapply answers_commit.
Qed.
(** Both together. Let more than two thirds prevote for [y], all members of this quorum being among
    [C], and let their precommits for [y], when they cast them, reach [ld] in the round. Then [y] is
    decided by everybody in [C] who checked it, did not decide before and is not hindered, unless
    [ld] got a certificate of the round from outside or a member of the quorum dropped out. *)
Definition drops_out (ld a : bytes) (h rd : N) (y : bytes) : Prop :=
  exists j k q, certifies (lg ld) h rd Prevote y j q /\ gets ld a j k q /\
    (~ (checked_at h y (x a k) /\ s_round (nd_st (x a k)) <= rd /\ undecided h rd (nd_smr (x a k))) \/ precommit_hindered a h rd y k).
Theorem C65_prevote_quorums_decide ld C log0 l h rd y Q :
  0 < h -> h + FUTURE_HEIGHT_GAP < 2 ^ 64 -> rd + FUTURE_ROUND_GAP < 2 ^ 64 -> y <> [] ->
  runs ld -> (forall a, a ∈ C -> runs a /\ P_Answer.signs (lg a)) -> (forall a, a ∈ Q -> a ∈ C) ->
  (forall t, collects lc tenc tdec spill (cr ld) (b ld) (cfg ld) (x ld) (lg ld) log0 l h rd t) ->
  gathered (lg ld) log0 l h rd Prevote y Q ->
  (forall a k, a ∈ Q -> precommits a h rd y k -> exists k', gathers (lg ld) h rd Precommit y a k') ->
  (forall v, seen log0 v \/ (exists j, seen (lg ld j) v) -> sv_voter v ∈ Q ->
     v_height (sv_vote v) = h -> v_round (sv_vote v) = rd -> v_type (sv_vote v) = Precommit -> v_hash (sv_vote v) = y) ->
  (forall t, certs_arrive ld C h rd t y) ->
  (exists j t, foreign tdec spill (b ld) (upto (lg ld) log0 j) h rd t) \/
  (exists a, a ∈ Q /\ drops_out ld a h rd y) \/
  exists j q, certifies (lg ld) h rd Precommit y j q /\
    forall a, a ∈ C -> exists k, gets ld a j k q /\
      (checked_at h y (x a k) -> m_step (nd_smr (x a k)) <> SCommit -> commits a h y k \/ commit_hindered a h y k).
Proof.
  intros Hh H1 H2 Hy Hld HC HQC Hco Hga Hvotes Hhon Harr.
  destruct (C65_prevote_quorums_are_answered ld C log0 l h rd y Q) as [(j & Hfo)|(j & q & Hq & Hans)]; try done; [left; by exists j, Prevote|].
  assert (forall Q' : list bytes, (forall a : bytes, a ∈ Q' -> a ∈ Q) -> (exists a, a ∈ Q /\ drops_out ld a h rd y) \/ forall a, a ∈ Q' -> exists k', gathers (lg ld) h rd Precommit y a k') as Hq'.
  { induction Q' as [|a Q' IH]; intros Hsub; [right; by intros a ?%elem_of_nil|].
    destruct IH as [?|IH]; [intros; apply Hsub; by right|by left|].
    assert (a ∈ Q) as Ha by (apply Hsub; left). destruct (Hans a (HQC a Ha)) as (k & Hk & Hka).
    assert (Decision (checked_at h y (x a k) /\ s_round (nd_st (x a k)) <= rd /\ undecided h rd (nd_smr (x a k)))) as [(R1 & R2 & R3)|Hn].
    { unfold checked_at, undecided. apply _. }
    - destruct (Hka R1 R2 R3) as [Hp|Hp].
      + right. intros a' [->|Ha']%elem_of_cons; [by eapply Hvotes|by apply IH].
      + left. exists a. split; [done|]. exists j, k, q. auto.
    - left. exists a. split; [done|]. exists j, k, q. auto. }
  destruct (Hq' Q ltac:(done)) as [?|Hall]; [right; by left|].
  destruct (C65_precommit_quorums_decide ld C log0 l h rd y Q) as [(j' & Hfo)|?]; try done.
  - intros a Ha. by apply HC.
  - destruct Hga as (G1 & G2 & _). split; [done|]. split; [|done]. intros a Ha. split; [by apply G2|by apply Hall].
  - left. by exists j', Precommit.
  - right. by right.
Qed.
(** ** A whole round *)
(** At time [k], [a], at height [h], hands the block [y] proposed for round [rd] to [check_block]. *)
Definition takes_up (a : bytes) (h rd : N) (y : bytes) (k : nat) : Prop :=
  exists e i s o r, lg a k = [NState e i s o r] /\ checks o h rd y /\ s_height s = h /\ s_power s = true.
(** After time [k], [a] casts its prevote of round [rd] of height [h] for [y]. *)
Definition prevotes (a : bytes) (h rd : N) (y : bytes) (k : nat) : Prop :=
  exists j e i s o r v, (k < j)%nat /\ lg a j = [NState e i s o r] /\ v ∈ o /\ vote_of v = Some (mkVote h rd Prevote y).
(** What can keep it from that: it is told of a later height, another trigger takes its state machine
    out of the propose step first, the record of the vote cannot be written, or, when it is locked,
    the certificate it has of the round of the lock is for another block. *)
Definition prevote_hindered (a : bytes) (h rd : N) (y : bytes) (k : nat) : Prop :=
  exists j, (k < j)%nat /\
    (h < s_height (nd_st (x a j)) \/
     (exists t m m' o r, lg a j = [NSmr t m o r] /\ smr_step open_chans t m = (m', o, r) /\ waiting h rd m /\ ~ waiting h rd m' /\
        ~ (t_type t = TProposal /\ t_src t = SrcState /\ t_height t = h /\ t_round t = rd /\ t_hash t = y)) \/
     (exists lr t m m' o r, lg a j = [NSmr t m o r] /\ smr_step open_chans t m = (m', o, r) /\ locked h rd lr y m /\ ~ locked h rd lr y m' /\
        (t_type t <> TProposal \/ unlocks t h rd lr y)) \/
     (exists e l s o r, lg a j = [NState e (IEvent (EvPrevote h rd y l)) s o r] /\
        ((exists w, ASave w false ∈ o) \/ exists lr q, vc_get_qc_by_id (s_votes s) h lr Prevote = Ok q /\ av_hash q <> y))).
(** [a] waits for the proposal of the round: without a lock, or locked on [y], with the block and the
    certificate of the lock at hand. *)
Definition free_for (a : bytes) (h rd : N) (y : bytes) (k : nat) : Prop :=
  waiting h rd (nd_smr (x a k)) \/
  exists lr, locked h rd lr y (nd_smr (x a k)) /\ is_Some (s_blocks (nd_st (x a k)) !! y) /\
    exists q, vc_get_qc_by_id (s_votes (nd_st (x a k))) h lr Prevote = Ok q.
Lemma free_for_dec a h rd y k : free_for a h rd y k \/ ~ free_for a h rd y k.
Proof.
  clear. unfold free_for. destruct (decide (waiting h rd (nd_smr (x a k)))) as [?|Hw]; [auto|].
  destruct (m_lock (nd_smr (x a k))) as [l|] eqn:El.
  2: { right. intros [?|(lr & (_ & _ & _ & E) & _)]; [done|]. by rewrite El in E. }
  destruct (decide (locked h rd (l_round l) y (nd_smr (x a k)))) as [Hl|Hl].
  2: { right. intros [?|(lr & Hk & _)]; [done|]. apply Hl. pose proof Hk as (_ & _ & _ & E). rewrite El in E. injection E as ->. exact Hk. }
  destruct (s_blocks (nd_st (x a k)) !! y) eqn:Eb.
  2: { right. intros [?|(lr & _ & [? ?] & _)]; [done|]. congruence. }
  destruct (vc_get_qc_by_id (s_votes (nd_st (x a k))) h (l_round l) Prevote) as [q| |] eqn:Eq.
  { left. right. exists (l_round l). split; [done|]. split; [by eexists|eauto]. }
  all: right; intros [?|(lr & (_ & _ & _ & E) & _ & (q & Hq))]; [done|]; rewrite El in E; injection E as ->; simpl in Eq; congruence.
Qed.
Definition misses_proposal (a : bytes) (h rd : N) (y : bytes) : Prop :=
  exists k, takes_up a h rd y k /\ (~ free_for a h rd y k \/ prevote_hindered a h rd y k).
Lemma answers_proposal a h rd y k : runs a -> P_Answer.signs (lg a) -> y <> [] ->
  takes_up a h rd y k -> free_for a h rd y k -> prevotes a h rd y k \/ prevote_hindered a h rd y k.
Proof.
  intros (Hex & Hf & Hb) Hsg Hy (e & i & s & o & r & Elg & Hc & Es & Hp) [Hw|(lr & Hw & Hbl & Hqc)].
  - destruct (C56_proposals_are_answered _ _ _ _ _ _ _ _ _ _ _ Hex Hf Hb Hsg _ _ _ _ _ _ h rd y Elg Hc Hy Es Hp Hw) as (j & Hj & [Hgt|[Ht|(e' & s' & o' & r' & El & [(w0 & Hs)|(v & Hv & Ev)])]]).
    + right. exists j. auto.
    + right. exists j. auto.
    + right. exists j. split; [done|]. right. right. right. exists e', None, s', o', r'. split; [done|]. left. by exists w0.
    + left. exists j. do 5 eexists. exists v. split; [done|]. split; [exact El|]. done.
  - assert (s = nd_st (x a k)) as ->.
    { assert (NState e i s o r ∈ lg a k) as Hin by (rewrite Elg; by left). by destruct (entry_at _ _ _ _ _ _ _ _ _ _ _ Hex Hf Hb _ _ _ _ _ _ Hin) as (_ & -> & _). }
    destruct (C67_locked_validators_prevote_their_block _ _ _ _ _ _ _ _ _ _ _ Hex Hf Hb Hsg _ _ _ _ _ _ h rd lr y Elg Hc Hy Es Hp Hbl Hqc Hw)
      as (j & Hj & [Hgt|[Ht|(e' & l & s' & o' & r' & El & [(w0 & Hs)|[(q & Hq & Hn)|(v & Hv & Ev)]])]]).
    + right. exists j. auto.
    + right. exists j. split; [done|]. right. right. left. by exists lr.
    + right. exists j. split; [done|]. right. right. right. exists e', l, s', o', r'. split; [done|]. left. by exists w0.
    + right. exists j. split; [done|]. right. right. right. exists e', l, s', o', r'. split; [done|]. right. by exists lr, q.
    + left. exists j. do 5 eexists. exists v. split; [done|]. split; [exact El|]. done.
Qed.

(** C66. Let more than two thirds of the weight of the validators take up the block [y] proposed for
    round [rd] of height [h] (the leader of the round among them, if it is one), and let their
    prevotes and precommits for [y], when they cast them, reach the collector [ld] in the round, and
    the certificates of [ld] everybody in [C]. Then [y] is decided by everybody in [C] who checked
    it, did not decide before and is not hindered, unless [ld] got a certificate of the round from
    outside, or a member of the quorum was not free to vote for [y] or dropped out. *)
Theorem C66_good_rounds_decide ld C log0 l h rd y Q :
  0 < h -> h + FUTURE_HEIGHT_GAP < 2 ^ 64 -> rd + FUTURE_ROUND_GAP < 2 ^ 64 -> y <> [] ->
  runs ld -> (forall a, a ∈ C -> runs a /\ P_Answer.signs (lg a)) -> (forall a, a ∈ Q -> a ∈ C) ->
  (forall t, collects lc tenc tdec spill (cr ld) (b ld) (cfg ld) (x ld) (lg ld) log0 l h rd t) ->
  3 * weight_of Q l > 2 * total_weight l -> (forall a, a ∈ Q -> a ∈ n_addr <$> l) ->
  (forall a, a ∈ Q -> exists k, takes_up a h rd y k) ->
  (forall a k, a ∈ Q -> prevotes a h rd y k -> exists k', gathers (lg ld) h rd Prevote y a k') ->
  (forall a k, a ∈ Q -> precommits a h rd y k -> exists k', gathers (lg ld) h rd Precommit y a k') ->
  (forall v, seen log0 v \/ (exists j, seen (lg ld j) v) -> sv_voter v ∈ Q ->
     v_height (sv_vote v) = h -> v_round (sv_vote v) = rd -> v_hash (sv_vote v) = y) ->
  (forall t, certs_arrive ld C h rd t y) ->
  (exists j t, foreign tdec spill (b ld) (upto (lg ld) log0 j) h rd t) \/
  (exists a, a ∈ Q /\ (misses_proposal a h rd y \/ drops_out ld a h rd y)) \/
  exists j q, certifies (lg ld) h rd Precommit y j q /\
    forall a, a ∈ C -> exists k, gets ld a j k q /\
      (checked_at h y (x a k) -> m_step (nd_smr (x a k)) <> SCommit -> commits a h y k \/ commit_hindered a h y k).
Proof.
  intros Hh H1 H2 Hy Hld HC HQC Hco Hw HQl Htake Hpv Hpc Hhon Harr.
  assert (forall Q' : list bytes, (forall a : bytes, a ∈ Q' -> a ∈ Q) -> (exists a, a ∈ Q /\ misses_proposal a h rd y) \/ forall a, a ∈ Q' -> exists k', gathers (lg ld) h rd Prevote y a k') as Hq'.
  { induction Q' as [|a Q' IH]; intros Hsub; [right; by intros a ?%elem_of_nil|].
    destruct IH as [?|IH]; [intros; apply Hsub; by right|by left|].
    assert (a ∈ Q) as Ha by (apply Hsub; left). destruct (HC a (HQC a Ha)) as [Hra Hsa]. destruct (Htake a Ha) as (k & Hk).
    assert (free_for a h rd y k \/ ~ free_for a h rd y k) as [Hwt|Hn].
    { by apply free_for_dec. }
    - destruct (answers_proposal a h rd y k Hra Hsa Hy Hk Hwt) as [Hp|Hp].
      + right. intros a' [->|Ha']%elem_of_cons; [by eapply Hpv|by apply IH].
      + left. exists a. split; [done|]. exists k. auto.
    - left. exists a. split; [done|]. exists k. auto. }
  destruct (Hq' Q ltac:(done)) as [(a & Ha & Hm)|Hall]; [right; left; exists a; auto|].
  destruct (C65_prevote_quorums_decide ld C log0 l h rd y Q) as [?|[(a & Ha & Hd)|?]]; try done.
  - split; [done|]. split; [intros a Ha; split; [by apply HQl|by apply Hall]|]. intros v ? ? ? ? _. by apply Hhon.
  - intros v ? ? ? ? _. by apply Hhon.
  - by left.
  - right; left. exists a. auto.
  - right. by right.
Qed.
End C65.
Print Assumptions C65_prevote_quorums_are_answered.
Print Assumptions C65_precommit_quorums_decide.
Print Assumptions C65_prevote_quorums_decide.
Print Assumptions C66_good_rounds_decide.
