(** * LockEv: what an instance's lock makes of its votes (for C28). *)
From Verif Require Export P_Votes P_Record.
Set Default Proof Using "Type".

(** [G h r x]: a prevote certificate for block hash [x] at height [h], round [r] exists that is
    believed to be genuine. *)
Section Lock.
Context (G : N -> N -> bytes -> Prop).

(** ** The events the state machine sends, with its lock *)
Definition upd (q : N) (x : bytes) : option lock := match x with [] => None | _ => Some (mkLock q x) end.
Definition lev_step (c : pos) (k : option lock) (ev : smr_event) (c' : pos) (k' : option lock) : Prop :=
  evs_step c ev c' /\
  match ev with
  | EvNewRound h r lr _ _ _ _ => lr = l_round <$> k' /\
      ((ph c < h /\ k' = None) \/
       (ph c = h /\ (k' = k \/ exists q x, pr c < q /\ r = q + 1 /\ G h q x /\ k' = upd q x)))
  | EvPrevote h r x lr => lr = l_round <$> k' /\
      ((k' = k /\ forall l, k = Some l -> x = l_hash l) \/
       (k' = None /\ exists l q y, k = Some l /\ G h q y /\ y <> l_hash l /\ l_round l < q /\ q < r))
  | EvPrecommit h r x lr => lr = l_round <$> k' /\
      ((x = [] /\ k' = k) \/ (G h r x /\ k' = upd r x) \/
       (c.2 = 0 /\ k' = k /\ exists l, k = Some l /\ l_hash l = x /\ r = l_round l + 1))
  | EvBrake h r lr => h = ph c /\ r = pr c /\ lr = l_round <$> k' /\ k' = k
  | EvCommit x => k' = k /\ x <> []
  | EvStop => False
  end.
Fixpoint lev_run (c : pos) (k : option lock) (evs : list smr_event) (c' : pos) (k' : option lock) : Prop :=
  match evs with
  | [] => c' = c /\ k' = k
  | ev :: evs => exists c1 k1, lev_step c k ev c1 k1 /\ lev_run c1 k1 evs c' k'
  end.
Lemma lev_run_app c k l1 l2 c' k' :
  lev_run c k (l1 ++ l2) c' k' <-> exists c1 k1, lev_run c k l1 c1 k1 /\ lev_run c1 k1 l2 c' k'.
Proof.
  revert c k. induction l1 as [|e l1 IH]; intros c k; simpl.
  - split; [intros H; by exists c, k|]. by intros (? & ? & (-> & ->) & ?).
  - split.
    + intros (c1 & k1 & H1 & H2). apply IH in H2 as (c2 & k2 & H2 & H3). eauto 8.
    + intros (c2 & k2 & (c1 & k1 & H1 & H2) & H3). exists c1, k1. split; [done|]. apply IH. eauto.
Qed.
Lemma lev_run_evs c k evs c' k' : lev_run c k evs c' k' -> evs_run c evs c'.
Proof.
  revert c k. induction evs as [|ev evs IH]; intros c k; simpl; [by intros [-> _]|].
  intros (c1 & k1 & [H1 _] & H2). eauto.
Qed.

(** A trigger is trusted if a prevote certificate it stands for is genuine. A proposal with a
    proof of lock newer than the lock takes the lock away: this is justified if there is a
    genuine certificate of that round, before the current one, for another block. *)
Definition trusted (t : trigger) : Prop :=
  t_type t = TPrevoteQC -> t_src t = SrcState -> G (t_height t) (t_round t) (t_hash t).
Definition unlock_ok (t : trigger) (m : smr) : Prop :=
  t_type t = TProposal -> t_src t = SrcState -> t_height t = m_height m -> t_round t = m_round m ->
  forall l lr, m_lock m = Some l -> t_lock_round t = Some lr -> l_round l < lr ->
    exists x, G (t_height t) lr x /\ x <> l_hash l /\ lr < t_round t.
Definition lock_ok (m : smr) : Prop := forall l, m_lock m = Some l -> m_hash m = l_hash l.
Lemma smr_lchain c t m m' o r :
  smr_step open_chans t m = (m', o, r) -> not_wal t -> trig_in_range t -> t_type t <> TStop ->
  trusted t -> unlock_ok t m -> lock_ok m -> at_smr c m ->
  lock_ok m' /\ exists c', lev_run c (m_lock m) (to_state o) c' (m_lock m') /\ at_smr c' m'.
Proof.
  intros Hs Hw Hr Hst Htr Hun Hok (k & -> & Hk). unfold not_wal, trig_in_range, trusted, unlock_ok, lock_ok in *.
  smr_go Hs; try congruence; unfold to_state, at_smr; simpl.
  all: rewrite ?w64_succ, ?pred_succ by lia.
  all: (split; [try done; try (intros ? [= <-]; done)|]).
  all: try (eexists; split; [split; reflexivity|eexists; split; [reflexivity|lia]]; fail).
  all: unfold lev_step; simpl.
  all: unfold ph, pr, INIT_ROUND in *; simpl.
  all: try (match goal with H : l_round ?l < ?n |- _ =>
      destruct (Hun eq_refl eq_refl ltac:(congruence) ltac:(congruence) _ _ eq_refl eq_refl H) as (y & Y1 & Y2 & Y3) end;
    exists (mh, mr, 1); split; [eexists _, _; split; [|split; reflexivity]|eexists; split; [reflexivity|lia]];
    split; [split_and!; first [reflexivity|lia]|]; split; [done|]; right; split; [done|]; subst;
    eexists _, _, y; split_and!; done).
  7: { exists (mh, trd + 1, 2). split; [|eexists; split; [reflexivity|lia]]. eexists (mh, trd + 1, 0), None. split.
       - split; [split; [right; lia|done]|]. split; [done|]. right. split; [done|]. right. exists trd, []. split_and!; [lia|done| |done].
         subst. by apply Htr.
       - eexists (mh, trd + 1, 2), None. split; [|done]. simpl. split; [split_and!; [done..|lia|done]|]. split; [done|]. by left. }
  7: { exists (mh, trd + 1, 2). split; [|eexists; split; [reflexivity|lia]].
       eexists (mh, trd + 1, 0), (Some (mkLock trd (b :: b0))). split.
       - split; [split; [right; lia|done]|]. split; [done|]. right. split; [done|]. right. exists trd, (b :: b0). split_and!; [lia|done| |done].
         subst. by apply Htr.
       - eexists (mh, trd + 1, 2), _. split; [|done]. simpl. split; [split_and!; [done..|lia|done]|]. split; [done|].
         right. right. split_and!; try done. eexists; done. }
  all: eexists; (split; [do 2 eexists; split; [|split; reflexivity]|eexists; (split; [reflexivity|])]); simpl.
  all: try lia; try (split_and!; first [reflexivity|lia|done|left; split; first [reflexivity|lia|exact Hok|done|intros ? [= <-]; reflexivity]
    |right; split; [reflexivity|left; reflexivity]|intros ? [= <-]; reflexivity]; fail).
  all: try (destruct ms; simpl in *; first [lia|congruence]).
  1, 3: assert (trd = mr) by lia; subst; rewrite N.eqb_refl in Heqb0; destruct Heqb0 as [?|?]; [done|];
    (split; [split_and!; [done..|lia|reflexivity]|]); (split; [done|]); right; left; split; [by apply Htr|done].
  all: lia.
Qed.

End Lock.
