(** * NodeHeld: where what an instance holds for its current height comes from. *)
From Verif Require Export NodeVerify.
Set Default Proof Using "Type".

Section NH.
Context {T : Type} `{EqDecision T}.
Context (lc : lcfg) (tenc : T -> bytes) (tdec : bytes -> option T) (spill : bool) (cr : crypto).
Local Notation noderun := (noderun lc tenc tdec spill cr).

(** The message was treated while the instance was at height [h]. *)
Definition treated_at (log : list (nlog T)) (h : N) (m : omsg T) : Prop :=
  exists e s o r, NState e (IMsg m) s o r ∈ log /\ s_height s = h.
Lemma treated_at_app log log' h m : treated_at log h m -> treated_at (log ++ log') h m.
Proof. intros (e & s & o & r & Hin & Hx). exists e, s, o, r. split; [|done]. apply elem_of_app; by left. Qed.

Definition from_vote (log : list (nlog T)) (h : N) (v : svote) : Prop :=
  treated_at log h (MVote v) \/ AOwnVote v ∈ actions log.
Definition from_qc (b : boot T) (log : list (nlog T)) (h : N) (q : aggvote) : Prop :=
  treated_at log h (MAgg q) \/
  (exists sc, treated_at log h (MChoke sc) /\ (ck_from (sc_choke sc) = UFPrevote q \/ ck_from (sc_choke sc) = UFPrecommit q)) \/
  ABroadcast (MAgg q) ∈ actions log \/
  exists w l, boot_wal tdec spill (boot_at b) w /\ wi_lock w = Some l /\ wl_votes l = q.
Definition from_choke (log : list (nlog T)) (h : N) (sc : schoke) : Prop :=
  treated_at log h (MChoke sc) \/ AOwnChoke sc ∈ actions log.
Lemma from_vote_app log log' h v : from_vote log h v -> from_vote (log ++ log') h v.
Proof. intros [?|?]; [left; by apply treated_at_app|right; rewrite actions_app; set_solver]. Qed.
Lemma from_qc_app b log log' h q : from_qc b log h q -> from_qc b (log ++ log') h q.
Proof.
  intros [?|[(sc & ? & ?)|[?|?]]]; [left; by apply treated_at_app|right; left; exists sc; split; [by apply treated_at_app|done]| |by right; right; right].
  right. right. left. rewrite actions_app. set_solver.
Qed.
Lemma from_choke_app log log' h v : from_choke log h v -> from_choke (log ++ log') h v.
Proof. intros [?|?]; [left; by apply treated_at_app|right; rewrite actions_app; set_solver]. Qed.

Record heldinv (b : boot T) (log : list (nlog T)) (s : st T) : Prop := {
  hi_votes : forall v, held_vote s (s_height s) v -> from_vote log (s_height s) v;
  hi_qcs : forall q, held_qc s (s_height s) q -> from_qc b log (s_height s) q;
  hi_props : forall sp, held_prop s (s_height s) sp -> treated_at log (s_height s) (MProposal sp);
  hi_chokes : forall k a sc, held_choke s k a sc ->
    sc_addr sc = a /\ ck_round (sc_choke sc) = k /\ ck_height (sc_choke sc) = s_height s /\ from_choke log (s_height s) sc }.

Lemma no_choke_new (s : st T) k a sc : s_chokes s = chokecol_new -> ~ held_choke s k a sc.
Proof. clear tdec spill. intros E (m & Hm & _). rewrite E in Hm. unfold chokecol_new in Hm. simpl in Hm. by rewrite lookup_empty in Hm. Qed.

Lemma moved_full_none stt (s : st T) :
  s_votes (moved_full stt s) !! st_height stt = None /\ s_props (moved_full stt s) !! st_height stt = None /\
  s_chokes (moved_full stt s) = chokecol_new /\ s_height (moved_full stt s) = st_height stt.
Proof.
  clear tdec spill. unfold moved_full. destruct (st_interval stt); simpl.
  all: split_and!; try done; unfold vc_take_height, pc_take_height; simpl; apply lookup_delete.
Qed.
Lemma heldinv_none b log stt s : heldinv b log (moved_full stt s).
Proof.
  destruct (moved_full_none stt s) as (Hv & Hp & Hc & Hh). rewrite <-Hh in Hv, Hp.
  destruct (held_nothing _ _ Hv Hp) as (N1 & N2 & N3). split.
  - intros v Hx. by apply N1 in Hx.
  - intros v Hx. by apply N2 in Hx.
  - intros v Hx. by apply N3 in Hx.
  - intros k a sc Hx. by apply no_choke_new in Hx.
Qed.
Lemma heldinv_app b log log' s : heldinv b log s -> heldinv b (log ++ log') s.
Proof.
  intros [H1 H2 H3 H4]. split; intros.
  - by apply from_vote_app, H1.
  - by apply from_qc_app, H2.
  - by apply treated_at_app, H3.
  - destruct (H4 _ _ _ H) as (? & ? & ? & ?). split_and!; try done. by apply from_choke_app.
Qed.
Lemma heldinv_same b log s s' :
  s_votes s' = s_votes s -> s_props s' = s_props s -> s_chokes s' = s_chokes s -> s_height s' = s_height s ->
  heldinv b log s -> heldinv b log s'.
Proof.
  intros E1 E2 E3 E4 [H1 H2 H3 H4]. split; rewrite E4.
  - intros v Hv. apply H1. unfold held_vote in *. by rewrite <-E1.
  - intros v Hv. apply H2. unfold held_qc in *. by rewrite <-E1.
  - intros v Hv. apply H3. unfold held_prop in *. by rewrite <-E2.
  - intros k a sc Hv. apply H4. unfold held_choke in *. by rewrite <-E3.
Qed.

(** At the start the only choke held is its own. *)
Lemma start_chokes e l s s' o r :
  s_chokes s = chokecol_new -> on_start lc tdec spill e l s = (s', o, r) ->
  forall k a sc, held_choke s' k a sc -> 
    sc_addr sc = a /\ ck_round (sc_choke sc) = k /\ ck_height (sc_choke sc) = s_height s' /\ AOwnChoke sc ∈ o.
Proof.
  clear tenc cr. intros Ec Hs. unfold on_start in Hs. apply logged_inv in Hs as (r' & Hs & _).
  assert (forall s1 : st T, s_chokes s1 = chokecol_new -> forall k a sc, held_choke s1 k a sc -> 
    sc_addr sc = a /\ ck_round (sc_choke sc) = k /\ ck_height (sc_choke sc) = s_height s1 /\ AOwnChoke sc ∈ o) as Hnone
    by (intros s1 E1 k a sc Hk; by apply no_choke_new in Hk).
  apply start_inv in Hs as [(-> & _)|(w & bs & _ & _ & _ & [[-> ->]|(p & _ & Ht)])].
  1,2: by apply Hnone.
  set (s1 := loaded_state w _ p s) in Ht.
  assert (s_chokes s1 = chokecol_new) as Ec1 by (unfold s1, loaded_state; by destruct (wi_lock w)).
  clearbody s1. unfold start_tail in Ht. destruct (bool_decide (wi_step w = SCommit)).
  2: { assert (hcR (IMsg MStop) s1 o s') as (Eh & _ & Hh).
       - revert Ht. match goal with |- ?x s1 = _ -> _ => assert (keeps (hcR (IMsg MStop)) x) as Hk end; [|apply Hk].
         apply (keeps_bind _ (hcR_comp _)).
         + destruct (bool_decide _); [apply hcR_brake|apply (keeps_ret _ (hcR_comp _))].
         + intros _. keeps_go (hcR_comp (IMsg (T:=T) MStop)). intros. by apply hcR_same.
       - intros k a sc Hk. apply Hh in Hk as [Hk|(? & ? & E3 & [?|?])]; [by apply no_choke_new in Hk|done|].
         split_and!; try done. congruence. }
  destruct (wi_lock w) as [lk|].
  2: { unfold fail in Ht. simplify_eq. by apply Hnone. }
  apply Hnone. apply commit_inv in Ht as [(-> & _)|(content & qc & _ & Hq & [(_ & -> & _)|(_ & Hx)])]; try done.
  destruct (e_commit e _ _) as [stt|].
  2: by destruct Hx as (-> & _).
  destruct Hx as (o2 & _ & Hx). destruct (get_proposer _ _ _ _); [|by destruct Hx as (-> & _)..].
  apply goto_inv in Hx as [(_ & -> & _)|[(_ & _ & -> & _)|[(_ & _ & -> & _)|(_ & _ & -> & _)]]]; try done.
Qed.
Theorem noderun_held b cfg log n :
  noderun b cfg log n -> s_power (nd_st n) = true -> (forall w, ASave w false ∉ actions log) ->
  heldinv b log (nd_st n).
Proof.
  induction 1 as [n log Hs|log n l n' log' Hr IH Hs]; intros Hpw Hsv.
  - assert (run_inv tdec spill (boot_at b) (inputs log) (actions log) (nd_st n)) as [(vo & Evo & Fvo) (po & Epo & Fpo) _ _ _ _].
    { eapply run_run_inv, (noderun_run lc tenc tdec spill cr). by constructor. }
    unfold nstart in Hs. destruct (on_start _ _ _ _ _ _) as [[s o] r] eqn:E. injection Hs as <- <-. simpl in *.
    split.
    + intros v Hv. eapply (held_vote_first s vo) in Hv as (r0 & t & a & Hv); [|done].
      apply first_vote_in in Hv. apply (proj1 (Forall_forall _ _) Fvo) in Hv as [Hv|Hv]; [|by right].
      destruct Hv as [? Hv]. by apply elem_of_nil in Hv.
    + intros q Hq. eapply (held_qc_last s vo) in Hq as (sel & Hq & _); [|done]. right. right.
      assert (VQC q ∈ vo) as Hin by by destruct (last_qc_app [] vo _ _ _ Hq).
      apply (proj1 (Forall_forall _ _) Fvo) in Hin as [(i & [? Hi] & _)|Hin]; [by apply elem_of_nil in Hi|done].
    + intros sp Hsp. apply held_prop_get in Hsp as (rr & Hsp). rewrite Epo in Hsp. unfold pops in Hsp.
      apply pget_foldl in Hsp as [Hsp|Hsp]; [unfold pget in Hsp; by rewrite lookup_empty in Hsp|].
      apply (proj1 (Forall_forall _ _) Fpo) in Hsp as (_ & _ & ? & Hsp). by apply elem_of_nil in Hsp.
    + intros k a sc Hk. pose proof (fun H => start_chokes _ _ _ _ _ _ H E k a sc Hk) as Hsc. destruct (Hsc eq_refl) as (? & ? & ? & ?). split_and!; try done. right. unfold actions. simpl. by rewrite app_nil_r.
  - assert (forall w, ASave w false ∉ actions log) as Hsv0 by (intros w Hw; apply (Hsv w); rewrite actions_app; set_solver).
    assert (forall w, ASave w false ∉ actions log') as Hsv1 by (intros w Hw; apply (Hsv w); rewrite actions_app; set_solver).
    specialize (fun H => IH H Hsv0).
    assert (run_inv tdec spill (boot_at b) (inputs log) (actions log) (nd_st n)) as [(vo & Evo & Fvo) (po & Epo & Fpo) _ _ _ _].
    { by eapply run_run_inv, (noderun_run lc tenc tdec spill cr). }
    apply nstep_cases in Hs as [(e & i & s & o & r & Es & Hrr & Es' & Hpop & ->)|(Es & _)].
    2: { rewrite Es in *. by apply heldinv_app, IH. }
    rewrite Es' in *. set (e0 := env_at n e) in *. set (x := NState _ _ _ _ _) in *.
    assert (actions [x] = o) as Ea by (unfold x, actions; simpl; apply app_nil_r).
    pose proof (votesR_react lc tenc e0 i _ _ _ _ Hrr) as (vo' & V1 & V2).
    pose proof (blocksR_react lc tenc e0 i _ _ _ _ Hrr) as [(po' & P1 & P2) _].
    assert (forall m, i = IMsg m -> treated_at (log ++ [x]) (s_height (nd_st n)) m) as Ht.
    { intros m ->. do 4 eexists. split; [apply elem_of_app; right; by apply elem_of_list_singleton|done]. }
    apply react_shape in Hrr as [m -> -> _|_ (S1 & S2 & S3 & S4) (_ & _ & Hc)|stt s1 o1 o2 r1 Hg Eo (Hn & _ & Eh & Epw) Ev Epp Ecc Had].
    { by apply heldinv_app, IH. }
    + rewrite S4 in Hpw. specialize (IH Hpw). pose proof (heldinv_app _ _ [x] _ IH) as [H1 H2 H3 H4]. split; rewrite S3.
      * intros v Hv. eapply (held_vote_first s (vo ++ vo')) in Hv as (r0 & t & a & Hv).
        2: { unfold vops in *. by rewrite V1, Evo, foldl_app. }
        apply first_vote_app in Hv as [Hv|Hv]; [apply H1; apply (held_vote_first _ vo); eauto|].
        apply (proj1 (Forall_forall _ _) V2) in Hv as [Hv|Hv]; [left; by apply Ht|right; rewrite actions_app, Ea; set_solver].
      * intros q Hq. eapply (held_qc_last s (vo ++ vo')) in Hq as (sel & Hq & Hb).
        2: { unfold vops in *. by rewrite V1, Evo, foldl_app. }
        apply last_qc_app in Hq as [Hq|Hq]; [apply H2; eapply Hb; eauto|].
        apply (proj1 (Forall_forall _ _) V2) in Hq as [[->|(sc & -> & Hsc)]|Hq].
        -- left. by apply Ht.
        -- right. left. exists sc. split; [by apply Ht|done].
        -- right. right. left. rewrite actions_app, Ea. set_solver.
      * intros sp Hsp. apply held_prop_get in Hsp as (rr & Hsp). rewrite P1 in Hsp.
        apply pget_foldl in Hsp as [Hsp|Hsp]; [apply H3, held_prop_get; eauto|].
        apply (proj1 (Forall_forall _ _) P2) in Hsp as (E1 & E2 & [->|(h' & r' & Hsp)]); [by apply Ht|].
        apply H3, held_prop_get. exists r'. rewrite E1. pose proof Hsp as Hsp2. rewrite Epo in Hsp2. unfold pops in Hsp2.
        apply pget_foldl in Hsp2 as [Hsp2|Hsp2]; [unfold pget in Hsp2; by rewrite lookup_empty in Hsp2|].
        apply (proj1 (Forall_forall _ _) Fpo) in Hsp2 as (-> & _). done.
      * intros k a sc Hk. apply Hc in Hk as [Hk|(? & ? & ? & Hk)]; [by apply H4|]. split_and!; try done.
        destruct Hk as [->|Hk]; [left; by apply Ht|right; rewrite actions_app, Ea; set_solver].
    + apply goto_inv in Hg as [(_ & -> & _)|[(_ & Hic & -> & _)|[(_ & _ & _ & Eo2 & _)|(_ & _ & -> & _)]]].
      * eapply heldinv_same; [exact Ev|exact Epp|exact Ecc|exact Eh|]. apply heldinv_app, IH. congruence.
      * simpl in Hpw. congruence.
      * exfalso. rewrite Ea in Hsv1. eapply Hsv1. rewrite Eo, Eo2. apply elem_of_app. right. by apply elem_of_list_singleton.
      * apply heldinv_none.
Qed.
End NH.
