(** * P_Deadlock: round changes can deadlock (C64). *)
From Verif Require Export P_TogetherEx.
Set Default Proof Using "Type".

(** ** A prefix, then a cycle for ever *)
Notation olab := (option (label bytes)).
Notation lentry := (node bytes * list (nlog bytes))%type.
Section Lasso.
Context (c : crypto) (n0 : node bytes).
(** [None]: this instance does nothing while the clock ticks. *)
Definition ostep (o : olab) (n : node bytes) : option lentry :=
  match o with Some l => nstep nlc ntenc c l n | None => Some (n, []) end.
Fixpoint trace (ls : list olab) (n : node bytes) : option (list lentry * node bytes) :=
  match ls with
  | [] => Some ([], n)
  | o :: ls => match ostep o n with
               | Some (n', g) => match trace ls n' with Some (tr, nf) => Some ((n, g) :: tr, nf) | None => None end
               | None => None end
  end.
Lemma trace_length ls n tr nf : trace ls n = Some (tr, nf) -> length tr = length ls.
Proof.
  revert n tr. induction ls as [|o ls IH]; intros n tr; simpl; [by intros [= <- <-]|].
  destruct (ostep o n) as [[n' g]|]; [|done]. destruct (trace ls n') as [[tr' nf']|] eqn:E; [|done]. intros [= <- <-]. simpl. by erewrite IH.
Qed.
Definition nodeat (tr : list lentry) (nf : node bytes) (i : nat) : node bytes := match tr !! i with Some (n, _) => n | None => nf end.
Lemma trace_step ls n tr nf : trace ls n = Some (tr, nf) -> nodeat tr nf 0 = n /\
  forall i o, ls !! i = Some o -> exists n1 g, tr !! i = Some (n1, g) /\ ostep o n1 = Some (nodeat tr nf (S i), g).
Proof.
  revert n tr. induction ls as [|o ls IH]; intros n tr; simpl; [intros [= <- <-]; split; [done|by intros ? ? ?]|].
  destruct (ostep o n) as [[n' g]|] eqn:Eo; [|done]. destruct (trace ls n') as [[tr' nf']|] eqn:E; [|done]. intros [= <- <-].
  destruct (IH _ _ E) as [H0 H]. split; [done|]. intros [|i] o' Hi; simpl in *.
  - injection Hi as <-. exists n, g. split; [done|]. rewrite Eo. f_equal. f_equal. rewrite <- H0. by destruct tr'.
  - exact (H _ _ Hi).
Qed.

Context (pre cyc : list olab) (tp tc : list lentry) (nc : node bytes).
Context (Hpre : trace pre n0 = Some (tp, nc)) (Hcyc : trace cyc nc = Some (tc, nc)) (Hne : cyc <> []).
Local Notation P := (length pre).
Local Notation L := (length cyc).
Definition fold (p l i : nat) : nat := if (i <? p)%nat then i else (p + (i - p) mod l)%nat.
Definition lx (i : nat) : node bytes := nodeat (tp ++ tc) nc (fold P L i).
Definition llab (i : nat) : olab := match (pre ++ cyc) !! fold P L i with Some o => o | None => None end.
Definition llg (i : nat) : list (nlog bytes) := match (tp ++ tc) !! fold P L i with Some (_, g) => g | None => [] end.
Lemma cyc_pos : (0 < L)%nat.
Proof using Hne. clear -Hne. destruct cyc; [done|simpl; lia]. Qed.
Lemma tp_len : length tp = P. Proof using Hpre. by eapply trace_length. Qed.
Lemma tc_len : length tc = L. Proof using Hcyc. by eapply trace_length. Qed.
Lemma fold_lt p l i : (0 < l)%nat -> (fold p l i < p + l)%nat.
Proof. intros Hl. unfold fold. destruct (Nat.ltb_spec i p); [lia|]. pose proof (Nat.mod_upper_bound (i - p) l). lia. Qed.
Lemma fold_id p l i : (i < p + l)%nat -> fold p l i = i.
Proof. intros Hl. unfold fold. destruct (Nat.ltb_spec i p); [done|]. rewrite Nat.mod_small; lia. Qed.
Lemma fold_le p l i : (fold p l i <= i)%nat.
Proof. unfold fold. destruct (Nat.ltb_spec i p); [done|]. destruct l as [|l]; [simpl; lia|]. pose proof (Nat.mod_le (i - p) (S l)). lia. Qed.
Lemma fold_shift p l i d : (0 < l)%nat -> fold p l (i + d) = fold p l (fold p l i + d).
Proof.
  intros Hl. unfold fold. destruct (Nat.ltb_spec i p) as [Hi|Hi]; [done|].
  destruct (Nat.ltb_spec (i + d) p) as [Hd|Hd]; [lia|].
  destruct (Nat.ltb_spec (p + (i - p) mod l + d) p) as [Hd'|Hd']; [lia|]. f_equal.
  replace (i + d - p)%nat with (i - p + d)%nat by lia. replace (p + (i - p) mod l + d - p)%nat with ((i - p) mod l + d)%nat by lia.
  by rewrite Nat.add_mod_idemp_l by lia.
Qed.
Lemma fold_next p l i : (0 < l)%nat -> (fold p l i + 1 < p + l)%nat /\ fold p l (S i) = S (fold p l i) \/ S (fold p l i) = (p + l)%nat /\ fold p l (S i) = p.
Proof.
  intros Hl. pose proof (fold_lt p l i Hl) as Hlt.
  assert (fold p l (S i) = fold p l (fold p l i + 1)) as -> by (replace (S i) with (i + 1)%nat by lia; by apply fold_shift).
  destruct (decide (fold p l i + 1 < p + l)%nat); [left|right].
  - rewrite (fold_id p l (fold p l i + 1)) by lia. lia.
  - split; [lia|]. assert (fold p l i + 1 = p + l)%nat as -> by lia. unfold fold. destruct (Nat.ltb_spec (p + l) p); [lia|].
    replace (p + l - p)%nat with l by lia. rewrite Nat.mod_same by lia. lia.
Qed.
Lemma lasso_step i : match llab i with Some l => nstep nlc ntenc c l (lx i) = Some (lx (S i), llg i) | None => lx (S i) = lx i /\ llg i = [] end.
Proof using Hpre Hcyc Hne.
  pose proof cyc_pos as HL. pose proof (fold_lt P L i HL) as Hlt. pose proof tp_len as Htp. pose proof tc_len as Htc.
  destruct (trace_step _ _ _ _ Hpre) as [Hp0 Hp]. destruct (trace_step _ _ _ _ Hcyc) as [Hc0 Hc].
  assert (exists o n1 g, (pre ++ cyc) !! fold P L i = Some o /\ (tp ++ tc) !! fold P L i = Some (n1, g) /\ ostep o n1 = Some (lx (S i), g)) as (o & n1 & g & E1 & E2 & E3).
  { assert (lx (S i) = nodeat (tp ++ tc) nc (S (fold P L i))) as Enext.
    { unfold lx. destruct (fold_next P L i HL) as [[_ ->]|[E ->]]; [done|]. rewrite E.
      assert (nodeat (tp ++ tc) nc (P + L) = nc) as -> by (unfold nodeat; by rewrite lookup_ge_None_2 by (rewrite app_length; lia)).
      unfold nodeat. rewrite (lookup_app_r tp tc P) by lia. rewrite Htp, Nat.sub_diag. exact Hc0. }
    rewrite Enext. destruct (decide (fold P L i < P)%nat) as [Hf|Hf].
    - destruct (lookup_lt_is_Some_2 pre (fold P L i)) as [o Ho]; [done|]. destruct (Hp _ _ Ho) as (n1 & g & Ht & Hs). exists o, n1, g.
      rewrite !lookup_app_l by lia. split; [done|]. split; [done|]. rewrite Hs. f_equal. f_equal. unfold nodeat.
      destruct (decide (S (fold P L i) < P)%nat) as [Hf'|Hf'].
      + by rewrite lookup_app_l by lia.
      + rewrite (lookup_ge_None_2 tp (S (fold P L i))) by lia. rewrite lookup_app_r by lia. replace (S (fold P L i) - length tp)%nat with 0%nat by lia. symmetry. exact Hc0.
    - destruct (lookup_lt_is_Some_2 cyc (fold P L i - P)) as [o Ho]; [lia|]. destruct (Hc _ _ Ho) as (n1 & g & Ht & Hs). exists o, n1, g.
      rewrite !lookup_app_r by lia. rewrite Htp. split; [done|]. split; [done|]. rewrite Hs. f_equal. f_equal. unfold nodeat.
      rewrite lookup_app_r by lia. rewrite Htp. by replace (S (fold P L i) - P)%nat with (S (fold P L i - P)) by lia. }
  assert (llab i = o) as -> by (unfold llab; by rewrite E1).
  assert (llg i = g) as -> by (unfold llg; by rewrite E2).
  assert (lx i = n1) as -> by (unfold lx, nodeat; by rewrite E2).
  destruct o as [l|]; simpl in E3; [exact E3|]. injection E3 as <- <-. done.
Qed.
(** What happens within one turn of the cycle happens. *)
Lemma lasso_later (p : list (nlog bytes) -> bool) i :
  existsb p (drop (fold P L i) (snd <$> (tp ++ tc ++ tc))) = true -> exists k, (i <= k)%nat /\ p (llg k) = true.
Proof using Hpre Hcyc Hne.
  intros (g & Hg & Hp)%existsb_exists. apply elem_of_list_In, elem_of_list_lookup in Hg as [d Hd]. rewrite lookup_drop in Hd.
  pose proof cyc_pos as HL. pose proof tp_len as Htp. pose proof tc_len as Htc.
  exists (i + d)%nat. split; [lia|]. unfold llg. rewrite fold_shift by done.
  set (k := (fold P L i + d)%nat) in *. rewrite list_lookup_fmap in Hd. destruct ((tp ++ tc ++ tc) !! k) as [[n g0]|] eqn:Hd0; [|discriminate Hd]. simpl in Hd. injection Hd as ->. rename Hd0 into Hd.
  rewrite app_assoc in Hd. destruct (decide (k < P + L)%nat) as [Hk|Hk].
  - rewrite fold_id by done. rewrite lookup_app_l in Hd by (rewrite app_length; lia). by rewrite Hd.
  - rewrite lookup_app_r in Hd by (rewrite app_length; lia). rewrite app_length, Htp, Htc in Hd.
    assert (k - (P + L) < L)%nat as Hlt by (pose proof (lookup_lt_Some _ _ _ Hd); lia).
    assert (fold P L k = (P + (k - (P + L)))%nat) as ->.
    { unfold fold. destruct (Nat.ltb_spec k P); [lia|]. f_equal. replace (k - P)%nat with (k - (P + L) + 1 * L)%nat by lia.
      rewrite Nat.mod_add by lia. apply Nat.mod_small. lia. }
    rewrite lookup_app_r by lia. rewrite Htp. replace (P + (k - (P + L)) - P)%nat with (k - (P + L))%nat by lia. by rewrite Hd.
Qed.
(** Every turn passes the same places. *)
Lemma lasso_turn d i : (d < L)%nat -> exists k, (i <= k)%nat /\ fold P L k = (P + d)%nat.
Proof using Hne.
  intros Hd. exists (P + (d + i * L))%nat. pose proof cyc_pos. split; [nia|]. unfold fold. destruct (Nat.ltb_spec (P + (d + i * L)) P); [lia|]. f_equal.
  replace (P + (d + i * L) - P)%nat with (d + i * L)%nat by lia. rewrite Nat.mod_add by lia. by apply Nat.mod_small.
Qed.
End Lasso.

(** ** Equality of nodes, to see that the cycle ends where it began *)
Global Instance qcpair_eq_dec : EqDecision qcpair. Proof. solve_decision. Defined.
Global Instance votes_eq_dec : EqDecision votes. Proof. solve_decision. Defined.
Global Instance roundcol_eq_dec : EqDecision roundcol. Proof. solve_decision. Defined.
Global Instance vrcol_eq_dec : EqDecision vrcol. Proof. solve_decision. Defined.
Global Instance chokecol_eq_dec : EqDecision chokecol. Proof. solve_decision. Defined.
Global Instance st_eq_dec : EqDecision (st bytes). Proof. solve_decision. Defined.
Global Instance tconfig_eq_dec : EqDecision tconfig. Proof. solve_decision. Defined.
Global Instance timer_eq_dec : EqDecision timer. Proof. solve_decision. Defined.
Global Instance vresp_eq_dec : EqDecision vresp. Proof. solve_decision. Defined.
Global Instance node_eq_dec : EqDecision (node bytes). Proof. solve_decision. Defined.

(** ** What the lasso does, checked over one prefix and two turns *)
Definition smr_lab (o : olab) : bool := match o with Some l => is_smr l | None => false end.
Definition arm_lab (o : olab) : bool := match o with Some l => is_arm l | None => false end.
Definition fire_lab (o : olab) : bool := match o with Some l => is_fire l | None => false end.
Definition event_lab (o : olab) : bool := match o with Some l => is_event l | None => false end.
Definition logs (tr : list lentry) : list (list (nlog bytes)) := snd <$> tr.
Definition at_rest (n : node bytes) : Prop :=
  nd_raw n = [] /\ nd_queue n = [] /\ nd_verifs n = [] /\ nd_resp n = [] /\ nd_checks n = [] /\ nd_trig n = [] /\ nd_evs n = [].
Definition at_restb (n : node bytes) : bool :=
  is_nil (nd_raw n) && is_nil (nd_queue n) && is_nil (nd_verifs n) && is_nil (nd_resp n) && is_nil (nd_checks n) && is_nil (nd_trig n) && is_nil (nd_evs n).
Lemma at_restb_ok n : at_restb n = true -> at_rest n.
Proof.
  unfold at_restb, at_rest. rewrite !andb_true_iff. intros H. destruct H as ((((((H1 & H2) & H3) & H4) & H5) & H6) & H7).
  repeat split; match goal with |- ?l = [] => destruct l; [done|] end; try discriminate.
Qed.
Definition stalled (h rd : N) (n : node bytes) : bool :=
  (s_height (nd_st n) =? h) && (s_round (nd_st n) =? rd) && (m_height (nd_smr n) =? h) && (m_round (nd_smr n) =? rd) && s_power (nd_st n) && four n.
Definition no_commit (g : nlog bytes) : bool :=
  match g with NState _ _ _ o _ => forallb (fun a => match a with ACommit _ _ => false | _ => true end) o | _ => true end.
(** A message is sent to [a']: broadcast, or transmitted to it. *)
Definition sent (a' : bytes) (m : omsg bytes) (log : list (nlog bytes)) : Prop :=
  exists e i s o r, NState e i s o r ∈ log /\ (ABroadcast m ∈ o \/ ATransmit a' m ∈ o).
(** A message is treated by the state module. *)
Definition treated (m : omsg bytes) (log : list (nlog bytes)) : Prop :=
  exists e s o r, NState e (IMsg m) s o r ∈ log.
Definition sends (a' : bytes) (log : list (nlog bytes)) : list (omsg bytes) :=
  mjoin ((fun g => match g with
    | NState _ _ _ o _ => omap (fun a => match a with ABroadcast m => Some m | ATransmit x m => if decide (x = a') then Some m else None | _ => None end) o
    | _ => [] end) <$> log).
Lemma sends_ok a' log m : m ∈ sends a' log <-> sent a' m log.
Proof.
  unfold sends, sent. rewrite elem_of_list_join. split.
  - intros (l & Hm & (g & -> & Hg)%elem_of_list_fmap). destruct g; try by apply elem_of_nil in Hm. apply elem_of_list_omap in Hm as (a & Ha & Hm).
    do 5 eexists. split; [exact Hg|]. destruct a; try discriminate Hm; [injection Hm as ->; by left|]. destruct (decide (to = a')) as [->|]; [|discriminate Hm].
    injection Hm as ->. by right.
  - intros (e & i & s & o & r & Hg & Hm). eexists. split; [|apply elem_of_list_fmap; eexists; split; [reflexivity|exact Hg]].
    apply elem_of_list_omap. destruct Hm as [Hm|Hm]; eexists; (split; [exact Hm|]); [done|]. simpl. by rewrite decide_True.
Qed.
Definition treats (log : list (nlog bytes)) : list (omsg bytes) :=
  omap (fun g => match g with NState _ (IMsg m) _ _ _ => Some m | _ => None end) log.
Lemma treats_ok log m : m ∈ treats log <-> treated m log.
Proof.
  unfold treats, treated. rewrite elem_of_list_omap. split.
  - intros (g & Hg & Hm). destruct g; try discriminate Hm. destruct i; try discriminate Hm. injection Hm as ->. by do 4 eexists.
  - intros (e & s & o & r & Hg). eexists. split; [exact Hg|done].
Qed.
Definition mem (m : omsg bytes) (l : list (omsg bytes)) : bool := bool_decide (m ∈ l).
Definition lab_uses (c : crypto) (o : olab) : Prop := match o with Some l => uses c l | None => True end.
Lemma nstep_crypto c c' l n n' g e i s o r : uses c l -> nstep nlc ntenc c' l n = Some (n', g) -> NState e i s o r ∈ g -> e_crypto e = c.
Proof.
  intros Hu Hs Hin. refine (sg_crypto c c' [l] n 0 e i s o r _ _); [by apply Forall_singleton|]. simpl. by rewrite Hs.
Qed.
Definition checks (h rd : N) (cyc : list olab) (tp tc : list lentry) (nc : node bytes) : bool :=
  existsb smr_lab cyc && existsb arm_lab cyc && existsb fire_lab cyc && existsb event_lab cyc &&
  forallb (fun x : lentry => in_rangeb (snd x) && nd_on (fst x) && all_saved (snd x) && no_lock (snd x)) (tp ++ tc) &&
  forallb (fun i => match (tp ++ tc) !! i with
                    | Some (n, _) => forallb (fun e => existsb (existsb (expires e)) (drop i (snd <$> (tp ++ tc ++ tc)))) (nd_sleeps n)
                    | None => true end) (seq 0 (length tp + length tc)) &&
  at_restb nc && forallb (fun x : lentry => stalled h rd (fst x) && forallb no_commit (snd x)) tc.

Lemma start_range me : in_rangeb (ndlog me []) = true.
Proof. unfold ndlog, ndexec. cbn [run_labels]. unfold nstart. destruct (on_start _ _ _ _ _ _) as [[? ?] ?]. reflexivity. Qed.

Section One.
Context (me : bytes) (h rd : N) (pre cyc : list olab) (tp tc : list lentry) (nc : node bytes).
Local Notation c := (ncr me).
Local Notation n0 := (ndnode me []).
Context (Hpre : trace c pre n0 = Some (tp, nc)) (Hcyc : trace c cyc nc = Some (tc, nc)) (Hne : cyc <> []).
Context (Hu : Forall (lab_uses c) (pre ++ cyc)) (Hck : checks h rd cyc tp tc nc = true).
Local Notation P := (length pre).
Local Notation L := (length cyc).
Local Notation x := (lx pre cyc tp tc nc).
Local Notation lab := (llab pre cyc).
Local Notation lg := (llg pre cyc tp tc).
Lemma one_at i : exists n g, (tp ++ tc) !! fold P L i = Some (n, g) /\ x i = n /\ lg i = g.
Proof using Hpre Hcyc Hne.
  pose proof (tp_len _ _ _ _ _ Hpre) as Htp. pose proof (tc_len _ _ _ _ Hcyc) as Htc.
  destruct (lookup_lt_is_Some_2 (tp ++ tc) (fold P L i)) as [[n g] E].
  { rewrite app_length, Htp, Htc. apply fold_lt. by eapply cyc_pos. }
  exists n, g. split; [done|]. unfold lx, nodeat, llg. by rewrite E.
Qed.
Lemma one_each i : in_rangeb (lg i) = true /\ nd_on (x i) = true /\ all_saved (lg i) = true /\ no_lock (lg i) = true.
Proof using Hpre Hcyc Hne Hck.
  destruct (one_at i) as (n & g & E & -> & ->). unfold checks in Hck. rewrite !andb_true_iff in Hck. destruct Hck as ((((_ & H) & _) & _) & _).
  rewrite forallb_forall in H. apply elem_of_list_lookup_2, elem_of_list_In, H in E. simpl in E. rewrite !andb_true_iff in E. tauto.
Qed.
Lemma one_cycles (q : olab -> bool) : existsb q cyc = true -> forall i, exists j, (i <= j)%nat /\ q (lab j) = true.
Proof using Hne Hck.
  clear Hck.
  intros (o & Ho & Hq)%existsb_exists i. apply elem_of_list_In, elem_of_list_lookup in Ho as [d Hd].
  destruct (lasso_turn pre cyc Hne d i) as (k & Hk & Ek); [by eapply lookup_lt_Some|]. exists k. split; [done|]. unfold llab. rewrite Ek.
  rewrite lookup_app_r by lia. replace (P + d - P)%nat with d by lia. by rewrite Hd.
Qed.
Lemma one_run : execution nlc ntenc ntdec true c (nboot me None) None x lab lg /\ fair x lab lg /\ served lg.
Proof using Hpre Hcyc Hne Hu Hck.
  assert (forall i e inp s o r, NState e inp s o r ∈ lg i -> e_crypto e = c) as Hcr.
  { intros i e inp s o r Hin. pose proof (lasso_step _ _ _ _ _ _ _ Hpre Hcyc Hne i) as Hs.
    destruct (lab i) as [l|] eqn:El; [|destruct Hs as [_ Hs]; rewrite Hs in Hin; by apply elem_of_nil in Hin].
    refine (nstep_crypto c c l _ _ _ _ _ _ _ _ _ Hs Hin). unfold llab in El. destruct ((pre ++ cyc) !! fold P L i) as [o'|] eqn:Eo; [|done]. subst o'.
    rewrite Forall_lookup in Hu. exact (Hu _ _ Eo). }
  pose proof Hck as Hck'. unfold checks in Hck'. rewrite !andb_true_iff in Hck'. destruct Hck' as (((((((C1 & C2) & C3) & C4) & _) & C5) & _) & _).
  split; [|split].
  - split.
    + exists (ndlog me []). destruct (trace_step _ _ _ _ _ Hpre) as [Hp0 _]. destruct (trace_step _ _ _ _ _ Hcyc) as [Hc0 _].
      assert (x 0%nat = n0) as ->.
      { unfold lx. rewrite fold_id by (pose proof (cyc_pos _ Hne); lia). unfold nodeat in *.
        destruct tp as [|[n g] tp']; [|exact Hp0]. simpl in Hp0. simpl. by rewrite Hc0. }
      split; [by apply ndok_run|]. apply in_rangeb_ok, start_range.
    + exact (lasso_step _ _ _ _ _ _ _ Hpre Hcyc Hne).
    + intros i. apply in_rangeb_ok, one_each.
    + intros i. apply one_each.
  - split.
    + intros i _. destruct (one_cycles _ C1 i) as (j & Hj & Hl). exists j. split; [done|]. destruct (lab j) as [[]|]; done.
    + intros i _. destruct (one_cycles _ C2 i) as (j & Hj & Hl). exists j. split; [done|]. destruct (lab j) as [[]|]; done.
    + intros i _. destruct (one_cycles _ C3 i) as (j & Hj & Hl). exists j. split; [done|]. destruct (lab j) as [[]|]; done.
    + intros i _. destruct (one_cycles _ C4 i) as (j & Hj & Hl). destruct (lab j) as [l|] eqn:El; [|done]. destruct l; try done. by exists j, e.
    + intros i e He. destruct (one_at i) as (n & g & E & En & _). rewrite En in He. rewrite forallb_forall in C5. specialize (C5 (fold P L i)).
      rewrite E in C5. rewrite forallb_forall in C5. destruct (lasso_later _ _ _ _ _ _ _ Hpre Hcyc Hne (existsb (expires e)) i) as (k & Hk & Hx).
      * apply C5; [|by apply elem_of_list_In]. apply in_seq. pose proof (lookup_lt_Some _ _ _ E) as Hlt. rewrite app_length in Hlt. lia.
      * exists k. split; [done|]. apply existsb_exists in Hx as (g' & Hg & Hx). destruct g'; try discriminate Hx. apply bool_decide_eq_true in Hx as ->.
        by apply elem_of_list_In.
  - split.
    + intros i e inp s o r Hin z. rewrite (Hcr _ _ _ _ _ _ Hin). by eexists.
    + intros i e inp s o r Hin sigs who. rewrite (Hcr _ _ _ _ _ _ Hin). by eexists.
    + intros i e inp s o r w Hin Hw. destruct (one_each i) as (_ & _ & Hs & _). apply (all_saved_ok _ Hs w). unfold actions.
      apply elem_of_list_In, in_concat. exists o. split; [|by apply elem_of_list_In]. apply elem_of_list_In, elem_of_list_fmap. by exists (NState e inp s o r).
    + intros i e hh rr lr s o r Hin. destruct (one_each i) as (_ & _ & _ & Hn). unfold no_lock in Hn. rewrite forallb_forall in Hn.
      apply elem_of_list_In, Hn in Hin. by destruct lr.
Qed.
Lemma one_stalls i : (P <= i)%nat -> stalled h rd (x i) = true /\ forallb no_commit (lg i) = true.
Proof using Hpre Hcyc Hne Hck.
  intros Hi. pose proof (tp_len _ _ _ _ _ Hpre) as Htp. destruct (one_at i) as (n & g & E & -> & ->). unfold checks in Hck. rewrite !andb_true_iff in Hck. destruct Hck as [_ H].
  rewrite lookup_app_r in E by (rewrite Htp; unfold fold; destruct (Nat.ltb_spec i P); lia).
  rewrite forallb_forall in H. apply elem_of_list_lookup_2, elem_of_list_In, H in E. simpl in E. by rewrite andb_true_iff in E.
Qed.
Lemma one_rests k : fold P L k = P -> at_rest (x k).
Proof using Hpre Hcyc Hne Hck.
  intros Ek. pose proof (tp_len _ _ _ _ _ Hpre) as Htp. destruct (trace_step _ _ _ _ _ Hcyc) as [Hc0 _].
  assert (x k = nc) as ->.
  { unfold lx. rewrite Ek. unfold nodeat in *. rewrite lookup_app_r by lia. rewrite Htp, Nat.sub_diag. exact Hc0. }
  apply at_restb_ok. unfold checks in Hck. rewrite !andb_true_iff in Hck. tauto.
Qed.
End One.

(** ** Several instances on one clock *)
(** What one of [Q] sends to another (by broadcast or to it alone) is treated there, later. *)
Definition messages_arrive (lg : bytes -> nat -> list (nlog bytes)) (Q : list bytes) : Prop :=
  forall a a' j m, a ∈ Q -> a' ∈ Q -> a <> a' -> sent a' m (lg a j) -> exists k, (j <= k)%nat /\ treated m (lg a' k).
(** Nothing is treated but statuses from the application, the messages [extra], and what another of
    [Q] sent before. *)
Definition nothing_forged (lg : bytes -> nat -> list (nlog bytes)) (Q : list bytes) (extra : list (omsg bytes)) : Prop :=
  forall a k m, a ∈ Q -> treated m (lg a k) ->
    is_rich_status m = true \/ m ∈ extra \/ exists a' j, a' ∈ Q /\ a' <> a /\ (j < k)%nat /\ sent a m (lg a' j).
Definition arrives (a' : bytes) (tr tr' tc' : list lentry) : bool :=
  forallb (fun i => forallb (fun m => existsb (fun g => mem m (treats g)) (drop i (snd <$> (tr' ++ tc')))) (sends a' (concat (option_list (snd <$> tr !! i)))))
    (seq 0 (length tr)).
Definition genuine (Q : list bytes) (extra : list (omsg bytes)) (tr : bytes -> list lentry) (a : bytes) : bool :=
  forallb (fun i => forallb (fun m => is_rich_status m || mem m extra || existsb (fun a' => negb (bool_decide (a' = a)) &&
      existsb (fun g => mem m (sends a g)) (take i (snd <$> tr a'))) Q) (treats (concat (option_list (snd <$> tr a !! i)))))
    (seq 0 (length (tr a))).

Section Family.
Context (Q : list bytes) (extra : list (omsg bytes)) (h : N) (rd : bytes -> N) (p l : nat).
Context (pre cyc : bytes -> list olab) (tp tc : bytes -> list lentry) (nc : bytes -> node bytes).
Context (Hp : forall a, length (pre a) = p) (Hl : forall a, length (cyc a) = S l).
Context (Hpre : forall a, a ∈ Q -> trace (ncr a) (pre a) (ndnode a []) = Some (tp a, nc a)).
Context (Hcyc : forall a, a ∈ Q -> trace (ncr a) (cyc a) (nc a) = Some (tc a, nc a)).
Context (Hu : forall a, Forall (lab_uses (ncr a)) (pre a ++ cyc a)).
Context (Hck : forall a, a ∈ Q -> checks h (rd a) (cyc a) (tp a) (tc a) (nc a) = true).
Context (Har : forall a a', a ∈ Q -> a' ∈ Q -> a <> a' -> arrives a' (tp a ++ tc a) (tp a' ++ tc a') (tc a') = true).
Context (Hge : forall a, a ∈ Q -> genuine Q extra (fun a => tp a ++ tc a) a = true).
Local Notation x := (fun a => lx (pre a) (cyc a) (tp a) (tc a) (nc a)).
Local Notation lab := (fun a => llab (pre a) (cyc a)).
Local Notation lg := (fun a => llg (pre a) (cyc a) (tp a) (tc a)).
Lemma cyc_ne a : cyc a <> [].
Proof using Hl. clear -Hl. intros E. pose proof (Hl a) as H. by rewrite E in H. Qed.
Lemma lg_at a i : a ∈ Q -> exists n g, (tp a ++ tc a) !! fold p (S l) i = Some (n, g) /\ llg (pre a) (cyc a) (tp a) (tc a) i = g.
Proof using Hp Hl Hpre Hcyc.
  intros Ha. destruct (one_at a (pre a) (cyc a) (tp a) (tc a) (nc a) (Hpre a Ha) (Hcyc a Ha) (cyc_ne a) i) as (n & g & E & _ & E').
  rewrite Hp, Hl in E. by exists n, g.
Qed.
Lemma family :
  (forall a, a ∈ Q -> execution nlc ntenc ntdec true (ncr a) (nboot a None) None (x a) (lab a) (lg a) /\ fair (x a) (lab a) (lg a) /\
     boots ntdec true (nboot a None) None /\ b_addr (nboot a None) = a /\ served (lg a)) /\
  messages_arrive lg Q /\ nothing_forged lg Q extra /\
  (forall i, exists k, (i <= k)%nat /\ forall a, a ∈ Q -> at_rest (x a k)) /\
  (forall a j, a ∈ Q -> (p <= j)%nat -> stalled h (rd a) (x a j) = true /\ forallb no_commit (lg a j) = true).
Proof using Hp Hl Hpre Hcyc Hu Hck Har Hge.
  split; [|split; [|split; [|split]]].
  - intros a Ha. destruct (one_run a h (rd a) (pre a) (cyc a) (tp a) (tc a) (nc a) (Hpre a Ha) (Hcyc a Ha) (cyc_ne a) (Hu a) (Hck a Ha)) as (H1 & H2 & H3).
    split; [exact H1|]. split; [exact H2|]. split; [reflexivity|]. split; [reflexivity|exact H3].
  - intros a a' j m Ha Ha' Hne Hs. destruct (lg_at a j Ha) as (n & g & E & E'). rewrite E' in Hs. apply sends_ok in Hs.
    pose proof (Har a a' Ha Ha' Hne) as Hall. unfold arrives in Hall. rewrite forallb_forall in Hall. specialize (Hall (fold p (S l) j)).
    rewrite E in Hall. simpl in Hall. rewrite app_nil_r in Hall. rewrite forallb_forall in Hall.
    destruct (lasso_later (ncr a') (ndnode a' []) (pre a') (cyc a') (tp a') (tc a') (nc a') (Hpre a' Ha') (Hcyc a' Ha') (cyc_ne a') (fun g => mem m (treats g)) j) as (k & Hk & Hm).
    + rewrite Hp, Hl. rewrite app_assoc. apply Hall; [|by apply elem_of_list_In]. apply in_seq. pose proof (lookup_lt_Some _ _ _ E). lia.
    + exists k. split; [done|]. apply treats_ok. by apply bool_decide_eq_true in Hm.
  - intros a k m Ha Ht. destruct (lg_at a k Ha) as (n & g & E & E'). rewrite E' in Ht. apply treats_ok in Ht.
    pose proof (Hge a Ha) as Hall. unfold genuine in Hall. rewrite forallb_forall in Hall. specialize (Hall (fold p (S l) k)).
    rewrite E in Hall. simpl in Hall. rewrite app_nil_r in Hall. rewrite forallb_forall in Hall.
    assert (is_rich_status m || mem m extra || existsb (fun a' => negb (bool_decide (a' = a)) &&
      existsb (fun g => mem m (sends a g)) (take (fold p (S l) k) (snd <$> (tp a' ++ tc a')))) Q = true) as Hm.
    { apply Hall; [|by apply elem_of_list_In]. apply in_seq. pose proof (lookup_lt_Some _ _ _ E). lia. }
    rewrite !orb_true_iff in Hm. destruct Hm as [[Hm|Hm]|Hm]; [by left|right; left; by apply bool_decide_eq_true in Hm|right; right].
    apply existsb_exists in Hm as (a' & Ha' & Hm). apply elem_of_list_In in Ha'. apply andb_true_iff in Hm as [Hne Hm]. apply negb_true_iff, bool_decide_eq_false in Hne.
    apply existsb_exists in Hm as (g' & Hg & Hm). apply elem_of_list_In, elem_of_list_lookup in Hg as [j Hj]. pose proof (lookup_lt_Some _ _ _ Hj) as Hlt.
    rewrite take_length in Hlt. rewrite lookup_take in Hj by lia. exists a', j. split; [done|]. split; [done|].
    pose proof (fold_le p (S l) k). pose proof (fold_lt p (S l) k ltac:(lia)). split; [lia|].
    destruct (lg_at a' j Ha') as (n' & g0 & E0 & E0'). rewrite E0'. rewrite fold_id in E0 by lia. rewrite list_lookup_fmap, E0 in Hj. simpl in Hj. injection Hj as ->.
    apply sends_ok. by apply bool_decide_eq_true in Hm.
  - intros i. exists (p + i * S l)%nat. split; [nia|]. intros a Ha.
    apply (one_rests a h (rd a) (pre a) (cyc a) (tp a) (tc a) (nc a) (Hpre a Ha) (Hcyc a Ha) (cyc_ne a) (Hck a Ha)).
    rewrite Hp, Hl. unfold fold. destruct (Nat.ltb_spec (p + i * S l) p); [lia|]. replace (p + i * S l - p)%nat with (0 + i * S l)%nat by lia.
    rewrite Nat.mod_add by lia. rewrite Nat.mod_0_l by lia. lia.
  - intros a j Ha Hj. refine (one_stalls a h (rd a) (pre a) (cyc a) (tp a) (tc a) (nc a) (Hpre a Ha) (Hcyc a Ha) (cyc_ne a) (Hck a Ha) j _). by rewrite Hp.
Qed.
End Family.

(** ** Three correct, connected validators of four, at rest for ever
    Height 3: D leads round 0, A round 1, B round 2. D proposes nothing, A, B and C choke round 0. A and B enter round
    1 by the chokes; there B's and D's votes for nothing and its own give A a certificate for nothing; it arrives at C
    before the chokes do, and C enters round 2 by it. D crashes: all it did in this story is that one vote. From then
    on A and B choke round 1, C chokes round 2; a choke for round 1 is dropped in round 2, and the certificate that C's
    chokes bring along is ignored by a state machine that has passed the prevote step of round 1. *)
Definition crew : list bytes := [nA; nB; nC].
Definition d_vote : omsg bytes := MVote (nvote nD 3 1 Prevote []).
Definition nil_cert : aggvote := nqc xd0 [nA; nB; nD] nA 3 1 Prevote [].
Definition block1 : omsg bytes := MProposal (nprop nA 3 1 (nblock 3) None).
Definition sc0 (a : bytes) : schoke := nchoke a 3 0 (UFPrecommit mock_init_qc).
Definition choke_qc0 : aggchoke := mkAggChoke 3 0 (sc_sig (sc0 nA) ++ sc_sig (sc0 nB) ++ sc_sig (sc0 nC)) crew.
Definition later_choke (a : bytes) : schoke := if bool_decide (a = nC) then nchoke nC 3 2 (UFPrevote nil_cert) else nchoke a 3 1 (UFChoke choke_qc0).
Definition mates (me : bytes) : list bytes := filter (fun a => a <> me) crew.
Definition gets (me : bytes) (l : list (omsg bytes)) : list (label bytes) := mjoin (through me <$> l).
Definition moves_of (me : bytes) (l : list (label bytes)) : list (bytes * label bytes) := pair me <$> l.
Definition timeout1 : list (label bytes) := [LArm; LExpire 0; LFire; LSmr].
Definition expire3 : list (label bytes) := [LExpire 0; LFire; LExpire 0; LFire; LExpire 0; LFire; LSmr; LSmr; LSmr; LArm].
Definition round0 (me : bytes) : list (bytes * label bytes) :=
  let e := nenv me true in
  moves_of me (status_through me (nstatus 3) ++ [LSmr; LEvent e] ++ timeout1 ++ [LEvent e] ++ timeout1 ++ [LEvent e] ++ timeout1 ++ [LEvent e; LArm]).
Definition ticks (me : bytes) : list (bytes * label bytes) := moves_of me [LExpire 0; LFire; LSmr; LArm; LEvent (nenv me true)].
Definition listens (me : bytes) : list (bytes * label bytes) :=
  moves_of me (gets me ((fun a => MChoke (later_choke a)) <$> mates me) ++ if bool_decide (me = nC) then [] else [LSmr]).
Definition turn64 : list (bytes * label bytes) := ticks nA ++ ticks nB ++ ticks nC ++ listens nA ++ listens nB ++ listens nC.
Definition story : list (bytes * label bytes) :=
  let e := fun me => nenv me true in
  round0 nA ++ round0 nB ++ round0 nC ++
  moves_of nA (gets nA [MChoke (sc0 nB); MChoke (sc0 nC)] ++ [LSmr; LArm; LExpire 1; LFire; LSmr; LEvent (e nA); LEvent (e nA); LSmr; LArm; LCheck 0 true; LResp (e nA)]) ++
  moves_of nB (gets nB [MChoke (sc0 nA); MChoke (sc0 nC)] ++ [LSmr; LArm; LExpire 1; LFire; LSmr; LEvent (e nB); LEvent (e nB); LArm]) ++
  moves_of nA (gets nA [MVote (nvote nB 3 1 Prevote []); d_vote] ++ [LSmr; LEvent (e nA); LArm]) ++
  moves_of nB (gets nB [MAgg nil_cert; block1] ++ [LSmr; LSmr; LEvent (e nB); LArm; LCheck 0 true; LResp (e nB)]) ++
  moves_of nC (gets nC [MAgg nil_cert] ++ [LSmr; LEvent (e nC); LEvent (e nC); LArm; LArm] ++ gets nC [MChoke (sc0 nA); MChoke (sc0 nB); block1]) ++
  moves_of nA (gets nA [MVote (nvote nB 3 1 Precommit [])] ++ expire3 ++ [LEvent (e nA)]) ++
  moves_of nB (gets nB [MVote (nvote nC 3 2 Precommit [])] ++ expire3 ++ [LEvent (e nB)]) ++
  moves_of nC (expire3 ++ [LEvent (e nC)]) ++
  listens nA ++ listens nB ++ listens nC ++ turn64.
Definition part (l : list (bytes * label bytes)) (a : bytes) : list olab :=
  (fun x : bytes * label bytes => if bool_decide (fst x = a) then Some (snd x) else None) <$> l.
Definition deadr (a : bytes) : N := if bool_decide (a = nC) then 2 else 1.
Definition pref (a : bytes) : list lentry * node bytes := match trace (ncr a) (part story a) (ndnode a []) with Some t => t | None => ([], ndnode a []) end.
Definition loop (a : bytes) : list lentry * node bytes := match trace (ncr a) (part turn64 a) (snd (pref a)) with Some t => t | None => ([], ndnode a []) end.
Definition isok {A} (o : option A) : bool := match o with Some _ => true | None => false end.
Lemma crew_pref : forallb (fun a => isok (trace (ncr a) (part story a) (ndnode a []))) crew = true. Proof. vm_compute. reflexivity. Qed.
Lemma crew_loop : forallb (fun a => isok (trace (ncr a) (part turn64 a) (snd (pref a)))) crew = true. Proof. vm_compute. reflexivity. Qed.
Lemma crew_back : forallb (fun a => bool_decide (snd (loop a) = snd (pref a))) crew = true. Proof. vm_compute. reflexivity. Qed.
Lemma crew_checks : forallb (fun a => checks 3 (deadr a) (part turn64 a) (fst (pref a)) (fst (loop a)) (snd (pref a))) crew = true.
Proof. vm_compute. reflexivity. Qed.
Lemma crew_arrive : forallb (fun a => forallb (fun a' => bool_decide (a = a') ||
  arrives a' (fst (pref a) ++ fst (loop a)) (fst (pref a') ++ fst (loop a')) (fst (loop a'))) crew) crew = true.
Proof. vm_compute. reflexivity. Qed.
Lemma crew_genuine : forallb (genuine crew [d_vote] (fun a => fst (pref a) ++ fst (loop a))) crew = true.
Proof. vm_compute. reflexivity. Qed.
Lemma story_uses l a : (forall b lb, (b, lb) ∈ l -> uses (ncr b) lb) -> Forall (lab_uses (ncr a)) (part l a).
Proof.
  intros H. apply Forall_forall. intros o (x & -> & Hx)%elem_of_list_fmap. destruct x as [b lb]. simpl. destruct (bool_decide (b = a)) eqn:E; [|exact I].
  apply bool_decide_eq_true in E as <-. by apply H.
Qed.
Lemma part_app l l' a : part (l ++ l') a = part l a ++ part l' a.
Proof. apply fmap_app. Qed.
Lemma moves_of_uses me l : Forall (uses (ncr me)) l -> Forall (fun x : bytes * label bytes => uses (ncr (fst x)) (snd x)) (moves_of me l).
Proof. intros H. apply Forall_fmap. exact H. Qed.
Lemma gets_uses me l : Forall (uses (ncr me)) (gets me l).
Proof.
  unfold gets. induction l as [|m l IH]; [by apply Forall_nil|]. change (Forall (uses (ncr me)) (through me m ++ gets me l)). apply Forall_app. split; [apply through_uses|exact IH].
Qed.
Ltac plain_uses := repeat (apply Forall_cons; split; [intros ? E; simpl in E; first [discriminate E|injection E as <-; reflexivity]|]); by apply Forall_nil.
Lemma turn_uses : Forall (fun x : bytes * label bytes => uses (ncr (fst x)) (snd x)) turn64.
Proof.
  unfold turn64, ticks, listens. repeat (apply Forall_app; split); apply moves_of_uses; try (apply Forall_app; split); try apply gets_uses; try plain_uses.
  all: destruct (bool_decide _); plain_uses.
Qed.
Lemma story_uses_all : Forall (fun x : bytes * label bytes => uses (ncr (fst x)) (snd x)) story.
Proof.
  unfold story, round0, ticks, listens, timeout1, expire3, status_through. cbv zeta.
  repeat (apply Forall_app; split); try exact turn_uses; apply moves_of_uses; repeat (apply Forall_app; split); try apply gets_uses; try plain_uses.
  all: destruct (bool_decide _); plain_uses.
Qed.
Lemma all_generic (story turn : list (bytes * label bytes)) (pref loop : bytes -> list lentry * node bytes) (Q : list bytes) (extra : list (omsg bytes)) (h : N) (rd : bytes -> N) :
  (forall a, a ∈ Q -> trace (ncr a) (part story a) (ndnode a []) = Some (fst (pref a), snd (pref a))) ->
  (forall a, a ∈ Q -> trace (ncr a) (part turn a) (snd (pref a)) = Some (fst (loop a), snd (loop a))) ->
  forallb (fun a => bool_decide (snd (loop a) = snd (pref a))) Q = true ->
  (0 < length turn)%nat ->
  Forall (fun x : bytes * label bytes => uses (ncr (fst x)) (snd x)) story -> Forall (fun x : bytes * label bytes => uses (ncr (fst x)) (snd x)) turn ->
  forallb (fun a => checks h (rd a) (part turn a) (fst (pref a)) (fst (loop a)) (snd (pref a))) Q = true ->
  forallb (fun a => forallb (fun a' => bool_decide (a = a') ||
    arrives a' (fst (pref a) ++ fst (loop a)) (fst (pref a') ++ fst (loop a')) (fst (loop a'))) Q) Q = true ->
  forallb (genuine Q extra (fun a => fst (pref a) ++ fst (loop a))) Q = true ->
  exists x lab lg,
  (forall a, a ∈ Q -> execution nlc ntenc ntdec true (ncr a) (nboot a None) None (x a) (lab a) (lg a) /\ fair (x a) (lab a) (lg a) /\
     boots ntdec true (nboot a None) None /\ b_addr (nboot a None) = a /\ served (lg a)) /\
  messages_arrive lg Q /\ nothing_forged lg Q extra /\
  (forall i, exists k, (i <= k)%nat /\ forall a, a ∈ Q -> at_rest (x a k)) /\
  (forall a j, a ∈ Q -> (length story <= j)%nat -> stalled h (rd a) (x a j) = true /\ forallb no_commit (lg a j) = true).
Proof.
  intros H1 H2 H3 H4 H5 H6 H7 H8 H9. destruct turn as [|y0 turn0] eqn:Et; [simpl in H4; lia|]. rewrite <- Et in *.
  exists (fun a => lx (part story a) (part turn a) (fst (pref a)) (fst (loop a)) (snd (pref a))), (fun a => llab (part story a) (part turn a)),
    (fun a => llg (part story a) (part turn a) (fst (pref a)) (fst (loop a))).
  rewrite forallb_forall in H3, H7, H8, H9.
  apply (family Q extra h rd (length story) (length turn0)).
  - intros a. unfold part. by rewrite fmap_length.
  - intros a. unfold part. rewrite fmap_length, Et. done.
  - intros a Ha. rewrite (H1 a Ha). done.
  - intros a Ha. rewrite (H2 a Ha). apply elem_of_list_In, H3, bool_decide_eq_true in Ha. by rewrite Ha.
  - intros a. apply Forall_app. split; apply story_uses; intros b lb Hb; [rewrite Forall_forall in H5; exact (H5 _ Hb)|rewrite Forall_forall in H6; exact (H6 _ Hb)].
  - intros a Ha. by apply H7, elem_of_list_In.
  - intros a a' Ha Ha' Hne. apply elem_of_list_In, H8 in Ha. rewrite forallb_forall in Ha. apply elem_of_list_In, Ha in Ha'.
    by rewrite bool_decide_eq_false_2 in Ha' by done.
  - intros a Ha. by apply H9, elem_of_list_In.
Qed.
Lemma trace_some (o : option (list lentry * node bytes)) d : isok o = true -> o = Some (fst (match o with Some t => t | None => d end), snd (match o with Some t => t | None => d end)).
Proof. by destruct o as [[? ?]|]. Qed.

Lemma stalled_ok h rd n : stalled h rd n = true ->
  s_height (nd_st n) = h /\ s_round (nd_st n) = rd /\ m_height (nd_smr n) = h /\ m_round (nd_smr n) = rd /\ s_power (nd_st n) = true /\ auth_len (s_auth (nd_st n)) = 4%nat.
Proof. unfold stalled, four. rewrite !andb_true_iff, !N.eqb_eq, Nat.eqb_eq. tauto. Qed.

(** Three of four validators are correct, fairly scheduled and served by their application and disk; every message
    between them arrives and is treated; they get nothing else but one vote of the fourth, and statuses. And yet, from
    some moment on, for ever, none of them commits, and none leaves its height or its round. *)
Theorem C64_round_changes_can_deadlock_refuted :
  exists (Q : list bytes) (vote : svote) (h : N) (rd : bytes -> N) p x lab lg,
  NoDup Q /\ length Q = 3%nat /\ sv_voter vote ∉ Q /\ v_height (sv_vote vote) = h /\
  (forall a, a ∈ Q -> execution nlc ntenc ntdec true (ncr a) (nboot a None) None (x a) (lab a) (lg a) /\ fair (x a) (lab a) (lg a) /\
     boots ntdec true (nboot a None) None /\ b_addr (nboot a None) = a /\ served (lg a)) /\
  messages_arrive lg Q /\ nothing_forged lg Q [MVote vote] /\
  (forall i, exists k, (i <= k)%nat /\ forall a, a ∈ Q -> at_rest (x a k)) /\
  (forall a j, a ∈ Q -> (p <= j)%nat ->
     s_height (nd_st (x a j)) = h /\ s_round (nd_st (x a j)) = rd a /\ m_height (nd_smr (x a j)) = h /\ m_round (nd_smr (x a j)) = rd a /\
     s_power (nd_st (x a j)) = true /\ auth_len (s_auth (nd_st (x a j))) = 4%nat /\
     forall e i s o r h' cm, NState e i s o r ∈ lg a j -> ACommit h' cm ∉ o).
Proof.
  destruct (all_generic story turn64 pref loop crew [d_vote] 3 deadr) as (x & lab & lg & F1 & F2 & F3 & F4 & F5).
  - intros a Ha. pose proof crew_pref as H. rewrite forallb_forall in H. apply elem_of_list_In, H in Ha. exact (trace_some _ _ Ha).
  - intros a Ha. pose proof crew_loop as H. rewrite forallb_forall in H. apply elem_of_list_In, H in Ha. exact (trace_some _ _ Ha).
  - exact crew_back.
  - apply Nat.ltb_lt. vm_compute. reflexivity.
  - exact story_uses_all.
  - exact turn_uses.
  - exact crew_checks.
  - exact crew_arrive.
  - exact crew_genuine.
  - exists crew, (nvote nD 3 1 Prevote []), 3, deadr, (length story), x, lab, lg.
    split; [apply (bool_decide_unpack _); vm_compute; exact I|]. split; [reflexivity|].
    split; [apply (bool_decide_unpack _); vm_compute; exact I|]. split; [reflexivity|].
    split; [exact F1|]. split; [exact F2|]. split; [exact F3|]. split; [exact F4|].
    intros a j Ha Hj. destruct (F5 a j Ha Hj) as [H1 H2]. destruct (stalled_ok _ _ _ H1) as (E1 & E2 & E3 & E4 & E5 & E6). split_and!; try assumption.
    intros e i s o r h' cm Hin Hc. rewrite forallb_forall in H2. apply elem_of_list_In, H2 in Hin. simpl in Hin. rewrite forallb_forall in Hin.
    by apply elem_of_list_In, Hin in Hc.
Qed.
