(** * P_DecideEx: an endless fair execution that meets the hypotheses of P_Decide (C53). *)
From Verif Require Export P_Decide P_Votes NodeEx.
Set Default Proof Using "Type".

(** ** A schedule followed by silence *)
Section Sched.
Context (cr : crypto).
Local Notation nst := (nstep nlc ntenc cr).
Fixpoint sx (ls : list (label bytes)) (n : node bytes) (i : nat) : node bytes :=
  match i, ls with
  | S i, l :: ls => match nst l n with Some (n', _) => sx ls n' i | None => n end
  | _, _ => n
  end.
Fixpoint sg (ls : list (label bytes)) (n : node bytes) (i : nat) : list (nlog bytes) :=
  match ls with
  | [] => []
  | l :: ls => match nst l n with
               | Some (n', g) => match i with O => g | S i => sg ls n' i end
               | None => []
               end
  end.
Definition sl (ls : list (label bytes)) (i : nat) : option (label bytes) := ls !! i.
Fixpoint all_logs (ls : list (label bytes)) (n : node bytes) : list (nlog bytes) :=
  match ls with [] => [] | l :: ls => match nst l n with Some (n', g) => g ++ all_logs ls n' | None => [] end end.
Definition is_smr (l : label bytes) : bool := match l with LSmr => true | _ => false end.
Definition is_arm (l : label bytes) : bool := match l with LArm => true | _ => false end.
Definition is_fire (l : label bytes) : bool := match l with LFire => true | _ => false end.
Definition is_event (l : label bytes) : bool := match l with LEvent _ => true | _ => false end.
Definition is_nil {A} (l : list A) : bool := match l with [] => true | _ => false end.
Definition expires (e : smr_event) (g : nlog bytes) : bool := match g with NExpire e' => bool_decide (e' = e) | _ => false end.
(** What waits now is read later; nobody stops; no round overflows. *)
Definition goodb (ls : list (label bytes)) (n : node bytes) : bool :=
  (is_nil (nd_trig n) || existsb is_smr ls) && (is_nil (nd_tevs n) || existsb is_arm ls) &&
  (is_nil (nd_fired n) || existsb is_fire ls) && (is_nil (nd_evs n) || existsb is_event ls) &&
  forallb (fun e => existsb (expires e) (all_logs ls n)) (nd_sleeps n) && nd_on n.
Fixpoint schedb (ls : list (label bytes)) (n : node bytes) : bool :=
  goodb ls n &&
  match ls with [] => true | l :: ls => match nst l n with Some (n', g) => in_rangeb g && schedb ls n' | None => false end end.

Lemma sx_step ls n i : schedb ls n = true ->
  match sl ls i with
  | Some l => nst l (sx ls n i) = Some (sx ls n (S i), sg ls n i)
  | None => sx ls n (S i) = sx ls n i /\ sg ls n i = []
  end.
Proof.
  revert n i. induction ls as [|l ls IH]; intros n i Hs; [by destruct i|]. simpl in Hs. apply andb_true_iff in Hs as [_ Hs].
  destruct i as [|i]; unfold sl; simpl; destruct (nst l n) as [[n' g]|] eqn:E; try done.
  - by destruct ls.
  - apply andb_true_iff in Hs as [_ Hs]. specialize (IH n' i Hs). unfold sl in IH. simpl in IH. exact IH.
Qed.
Lemma sx_good ls n i : schedb ls n = true -> goodb (drop i ls) (sx ls n i) = true.
Proof.
  revert n i. induction ls as [|l ls IH]; intros n i Hs; simpl in Hs; apply andb_true_iff in Hs as [Hg Hs].
  - by destruct i.
  - destruct i as [|i]; [done|]. simpl. destruct (nst l n) as [[n' g]|] eqn:E; [|done]. apply andb_true_iff in Hs as [_ Hs]. by apply IH.
Qed.
Lemma sg_range ls n i : schedb ls n = true -> in_rangeb (sg ls n i) = true.
Proof.
  revert n i. induction ls as [|l ls IH]; intros n i Hs; [done|]. simpl in Hs |- *. apply andb_true_iff in Hs as [_ Hs].
  destruct (nst l n) as [[n' g]|]; [|done]. apply andb_true_iff in Hs as [Hg Hs]. destruct i; [done|by apply IH].
Qed.
Lemma sg_drop ls n i j : schedb ls n = true -> sg (drop i ls) (sx ls n i) j = sg ls n (i + j).
Proof.
  revert n i. induction ls as [|l ls IH]; intros n i Hs; [by destruct i|]. destruct i as [|i]; [done|].
  simpl in Hs |- *. apply andb_true_iff in Hs as [_ Hs]. destruct (nst l n) as [[n' g]|]; [|done]. apply andb_true_iff in Hs as [_ Hs]. by apply IH.
Qed.
Lemma all_logs_in ls n g : g ∈ all_logs ls n -> exists j, g ∈ sg ls n j.
Proof.
  revert n. induction ls as [|l ls IH]; intros n; [by intros ?%elem_of_nil|]. simpl. destruct (nst l n) as [[n' g0]|]; [|by intros ?%elem_of_nil].
  intros [H|H]%elem_of_app; [by exists 0%nat|]. destruct (IH _ H) as [j Hj]. by exists (S j).
Qed.
Lemma later ls (f : label bytes -> bool) i : existsb f (drop i ls) = true -> exists j l, (i <= j)%nat /\ sl ls j = Some l /\ f l = true.
Proof.
  intros (l & Hl & Hf)%existsb_exists. apply elem_of_list_In, elem_of_list_lookup in Hl as [j Hj]. rewrite lookup_drop in Hj.
  exists (i + j)%nat, l. split; [lia|done].
Qed.
Lemma nil_or {A} (l : list A) (b : bool) : is_nil l || b = true -> l <> [] -> b = true.
Proof. by destruct l. Qed.
Lemma sched_execution b cfg ls n log :
  noderun nlc ntenc ntdec true cr b cfg log n -> in_rangeb log = true -> schedb ls n = true ->
  execution nlc ntenc ntdec true cr b cfg (sx ls n) (sl ls) (sg ls n) /\ fair (sx ls n) (sl ls) (sg ls n).
Proof.
  intros Hr Hl Hs. split.
  - split.
    + exists log. split; [by destruct ls|by apply in_rangeb_ok].
    + intros i. by apply sx_step.
    + intros i. by apply in_rangeb_ok, sg_range.
    + intros i. pose proof (sx_good _ _ i Hs) as Hg. unfold goodb in Hg. by repeat (apply andb_true_iff in Hg as [? Hg]).
  - assert (forall i, goodb (drop i ls) (sx ls n i) = true) as Hg by (intros; by apply sx_good).
    unfold goodb in Hg.
    split; intros i; specialize (Hg i); repeat rewrite andb_true_iff in Hg; destruct Hg as [[[[[G1 G2] G3] G4] G5] G6].
    + intros Hn. apply (nil_or _ _ G1), later in Hn as (j & l & ? & E & Hf). destruct l; try discriminate Hf. by exists j.
    + intros Hn. apply (nil_or _ _ G2), later in Hn as (j & l & ? & E & Hf). destruct l; try discriminate Hf. by exists j.
    + intros Hn. apply (nil_or _ _ G3), later in Hn as (j & l & ? & E & Hf). destruct l; try discriminate Hf. by exists j.
    + intros Hn. apply (nil_or _ _ G4), later in Hn as (j & l & ? & E & Hf). destruct l; try discriminate Hf. by exists j, e.
    + intros e He. rewrite forallb_forall in G5. apply elem_of_list_In, G5, existsb_exists in He as (g & Hin & Hf).
      apply elem_of_list_In, all_logs_in in Hin as [j Hj]. rewrite sg_drop in Hj by done. exists (i + j)%nat. split; [lia|].
      destruct g; try discriminate Hf. apply bool_decide_eq_true in Hf as ->. done.
Qed.
End Sched.

(** ** A follower whose application never answers a commit *)
(** A follows B's proposal through height 1, as in [follower_schedule], and the application fails to
    execute the block: every timeout expires, and then there is nothing left to do. *)
Definition no_answer : env bytes :=
  mkEnv (ncr nA) (e_get_block (nenv nA true)) (fun _ _ => None) (e_save (nenv nA true)) (fun _ => true).
Definition until_decided : list (label bytes) :=
  let e := nenv nA true in
  status_through nA (nstatus 1) ++ [LSmr; LEvent e; LArm] ++
  through nA (MProposal (nprop nB 1 0 blk None)) ++ [LSmr; LArm; LEvent e; LExpire 0; LFire; LSmr; LCheck 0 true; LResp e] ++
  through nA (MAgg pvqc) ++ [LSmr; LEvent e; LArm] ++ [LSend (MAgg pcqc); LRaw e; LVerify 0].
Definition decided_then : list (label bytes) :=
  let e := nenv nA true in
  [LMsg e; LSmr; LArm; LEvent no_answer; LExpire 0; LFire; LSmr; LExpire 0; LFire; LSmr].
Definition dnode : node bytes := ndnode nA until_decided.
Lemma until_decided_ok : ndok nA until_decided = true.
Proof. vm_compute. reflexivity. Qed.
Lemma until_decided_range : in_rangeb (ndlog nA until_decided) = true.
Proof. vm_compute. reflexivity. Qed.
Lemma decided_sched : schedb (ncr nA) decided_then dnode = true.
Proof. vm_compute. reflexivity. Qed.
(** The next message for the state module is the certificate, the block is checked and at hand. *)
Definition decided_now (n : node bytes) (g : list (nlog bytes)) : bool :=
  match g with
  | NState _ (IMsg (MAgg q)) s _ _ :: [] =>
      bool_decide (q = pcqc) && s_power s && (s_height s =? 1) && bool_decide (s_full s !! hsh = Some true) &&
      match s_blocks s !! hsh with Some _ => true | None => false end &&
      (m_height (nd_smr n) =? 1) && bool_decide (m_step (nd_smr n) <> SCommit)
  | _ => false
  end.
Lemma decided_now_ok : decided_now dnode (sg (ncr nA) decided_then dnode 0) = true.
Proof. vm_compute. reflexivity. Qed.
Lemma decided_from (n : node bytes) g : decided_now n g = true ->
  exists e inp s o r, g = [NState e inp s o r] /\ s_power s = true /\ decisive inp s o hsh /\ is_Some (s_blocks s !! hsh) /\
    s_height s = 1 /\ m_height (nd_smr n) = s_height s /\ m_step (nd_smr n) <> SCommit.
Proof.
  unfold decided_now. destruct g as [|[| |e i s o r| | | | | |] [|g0 g]]; try done; [|by destruct i as [| | |]; try done; destruct m]. destruct i; try done; destruct m; try done.
  rewrite !andb_true_iff, !bool_decide_eq_true, !N.eqb_eq. intros ((((((-> & H1) & H2) & H3) & H4) & H5) & H6).
  do 5 eexists. split; [reflexivity|]. split; [done|]. split; [|split; [|split; [done|split; [congruence|done]]]].
  2: { destruct (s_blocks s !! hsh) as [c|]; [by exists c|done]. }
  left. exists pcqc. split; [|done]. left. split; [done|]. by rewrite H2.
Qed.
Lemma dnode_runs : ndrun nA (ndlog nA until_decided) dnode.
Proof. exact (ndok_run _ _ until_decided_ok). Qed.
Example decided_execution :
  let x := sx (ncr nA) decided_then dnode in let lab := sl decided_then in let lg := sg (ncr nA) decided_then dnode in
  execution nlc ntenc ntdec true (ncr nA) (nboot nA None) None x lab lg /\ fair x lab lg /\ boots ntdec true (nboot nA None) None /\
  exists e inp s o r, lg 0%nat = [NState e inp s o r] /\ s_power s = true /\ hsh <> [] /\ decisive inp s o hsh /\
    is_Some (s_blocks s !! hsh) /\ 0 < s_height s /\ m_height (nd_smr (x 0%nat)) = s_height s /\ m_step (nd_smr (x 0%nat)) <> SCommit.
Proof.
  cbv zeta. pose proof dnode_runs as Hr. pose proof until_decided_range as Hl. pose proof decided_sched as Hs. pose proof decided_now_ok as Hd.
  unfold ndrun in Hr. generalize dependent (ndlog nA until_decided). generalize dependent dnode. intros n Hs Hd log Hr Hl.
  destruct (sched_execution _ _ _ _ _ _ Hr Hl Hs) as [He Hf]. split; [exact He|]. split; [exact Hf|]. split; [reflexivity|].
  apply decided_from in Hd as (e & inp & s & o & r & E & H1 & H2 & H3 & H4 & H5 & H6). change (sx (ncr nA) decided_then n 0) with n.
  exists e, inp, s, o, r. split; [exact E|]. split; [exact H1|]. split; [discriminate|]. split; [exact H2|]. split; [exact H3|].
  split; [by rewrite H4|]. split; [exact H5|exact H6].
Qed.
(** What the theorem promises is what happens: A commits B's block at height 1. *)
Example decided_committed :
  (fun x => (x.1, c_content x.2)) <$> committed (all_logs (ncr nA) decided_then dnode) = [(1, blk)].
Proof. vm_compute. reflexivity. Qed.
