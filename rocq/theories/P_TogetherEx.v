(** * P_TogetherEx: three instances on one clock that meet the hypotheses of P_Together (C63). *)
From Verif Require Export P_Together P_ChokeEx P_QuorumEx.
Set Default Proof Using "Type".

(** A, B and D (three of four validators) know of height 1; B leads round 0 and has no block to propose. Their
    timeouts expire, and each of them is about to choke round 0 when the clock starts. *)
Definition noblock (me : bytes) : env bytes := mkEnv (ncr me) (fun _ => None) (e_commit (nenv me true)) (e_save (nenv me true)) (fun _ => true).
Definition nocommit (me : bytes) : env bytes :=
  mkEnv (ncr me) (e_get_block (nenv me true)) (fun _ _ => None) (e_save (nenv me true)) (fun _ => true).
Definition waits (me : bytes) : list (label bytes) :=
  let e := nenv me true in
  let timeout := [LArm; LExpire 0; LFire; LSmr] in
  status_through me (nstatus 1) ++ [LSmr; LEvent (noblock me)] ++ timeout ++ [LEvent e] ++ timeout ++ [LEvent e] ++ timeout.
(** They choke round 0 and hear each other; then C leads round 1, and they follow it to the commit of its block. *)
Definition others (me : bytes) : list bytes := filter (fun a => a <> me) [nA; nB; nD].
Definition hears (me : bytes) (l : list bytes) : list (label bytes) := mjoin ((fun a => through me (nvchoke a)) <$> l).
Definition moves (me : bytes) : list (label bytes) :=
  let e := nenv me true in
  [LEvent e; LArm] ++ hears me (others me) ++
  [LSmr; LEvent e; LArm] ++ through me (MProposal (nprop nC 1 1 blk None)) ++ [LSmr; LArm; LEvent e; LCheck 0 true; LResp e] ++
  through me (MAgg (nqc xe0 [nA; nB; nC] nC 1 1 Prevote hsh)) ++ [LSmr; LEvent e; LArm] ++
  through me (MAgg (nqc xe0 [nA; nB; nC] nC 1 1 Precommit hsh)) ++ [LSmr; LArm; LEvent (nocommit me)] ++
  [LExpire 0; LFire; LExpire 0; LFire; LExpire 0; LFire; LExpire 0; LFire; LSmr; LSmr; LSmr; LSmr].

(** ** What an execution does, checked over its schedule *)
Lemma sg_in c ls n j g : g ∈ sg c ls n j -> g ∈ all_logs c ls n.
Proof.
  revert n j. induction ls as [|l ls IH]; intros n j; simpl; [by intros ?%elem_of_nil|].
  destruct (nstep nlc ntenc c l n) as [[n' g']|]; [|by intros ?%elem_of_nil]. intros Hg. apply elem_of_app. destruct j; [by left|right; by eapply IH].
Qed.
Lemma sg_end c ls n j : (length ls <= j)%nat -> sg c ls n j = [].
Proof.
  revert n j. induction ls as [|l ls IH]; intros n j Hj; [done|]. simpl in *. destruct j as [|j]; [lia|].
  destruct (nstep nlc ntenc c l n) as [[n' g']|]; [|done]. apply IH. lia.
Qed.
Definition uses (c : crypto) (l : label bytes) : Prop := forall e, label_env l = Some e -> e_crypto e = c.
Lemma sg_crypto c c' ls n j e inp s o r : Forall (uses c) ls -> NState e inp s o r ∈ sg c' ls n j -> e_crypto e = c.
Proof.
  revert n j. induction ls as [|l ls IH]; intros n j Hl Hin; [by apply elem_of_nil in Hin|]. apply Forall_cons in Hl as [H1 H2].
  simpl in Hin. destruct (nstep nlc ntenc c' l n) as [[n' g]|] eqn:E; [|by apply elem_of_nil in Hin]. destruct j as [|j]; [|by eapply (IH n' j)].
  clear IH H2. destruct l; simpl in E; try (injection E as <- <-; by apply elem_of_list_singleton in Hin);
    repeat (case_match; try done); unfold state_move, smr_move in *;
    repeat match type of E with context [react ?a ?b ?c ?d ?e] => destruct (react a b c d e) as [[??]?] | context [smr_step ?a ?b ?c] => destruct (smr_step a b c) as [[??]?] end;
    injection E as <- <-; apply elem_of_list_singleton in Hin; try discriminate Hin; injection Hin as -> -> -> -> ->; exact (H1 _ eq_refl).
Qed.
Fixpoint always (c : crypto) (p : node bytes -> bool) (ls : list (label bytes)) (n : node bytes) : bool :=
  p n && match ls with [] => true | l :: ls => match nstep nlc ntenc c l n with Some (n', _) => always c p ls n' | None => true end end.
Lemma always_ok c p ls n j : always c p ls n = true -> p (sx c ls n j) = true.
Proof.
  revert n j. induction ls as [|l ls IH]; intros n j; simpl; intros [H1 H2]%andb_true_iff; [by destruct j|].
  destruct j as [|j]; simpl; [done|]. destruct (nstep nlc ntenc c l n) as [[n' g']|]; [by apply IH|done].
Qed.
Definition no_lock (log : list (nlog bytes)) : bool :=
  forallb (fun g => match g with NState _ (IEvent (EvBrake _ _ (Some _))) _ _ _ => false | _ => true end) log.
Definition four (n : node bytes) : bool := (auth_len (s_auth (nd_st n)) =? 4)%nat.
Definition heard (c : crypto) (ls : list (label bytes)) (n : node bytes) (j : nat) (sc : schoke) : bool :=
  existsb (fun k => match sg c ls n k with [NState _ (IMsg (MChoke sc')) _ _ _] => bool_decide (sc' = sc) | _ => false end) (seq j (length ls)).
Definition arriving (c c' : crypto) (ls ls' : list (label bytes)) (n n' : node bytes) (h r : N) : bool :=
  forallb (fun j => forallb (fun g => match g with
    | NState _ _ _ o _ => forallb (fun a => match a with
        | ABroadcast (MChoke sc) => negb ((ck_height (sc_choke sc) =? h) && (ck_round (sc_choke sc) =? r)) || heard c' ls' n' j sc
        | _ => true end) o
    | _ => true end) (sg c ls n j)) (seq 0 (length ls)).
Lemma arriving_ok c c' ls ls' n n' h r : arriving c c' ls ls' n n' h r = true ->
  forall j e i s o rr sc, sg c ls n j = [NState e i s o rr] -> ABroadcast (MChoke sc) ∈ o -> ck_height (sc_choke sc) = h -> ck_round (sc_choke sc) = r ->
  exists k e' s' o' r', (j <= k)%nat /\ sg c' ls' n' k = [NState e' (IMsg (MChoke sc)) s' o' r'].
Proof.
  intros Ha j e i s o rr sc Hg Hb E1 E2. unfold arriving in Ha. rewrite forallb_forall in Ha. specialize (Ha j).
  destruct (le_lt_dec (length ls) j) as [Hj|Hj]; [rewrite sg_end in Hg by done; discriminate Hg|].
  assert (In j (seq 0 (length ls))) as Hin by (apply in_seq; lia). apply Ha in Hin. rewrite Hg in Hin. cbn [forallb] in Hin. rewrite andb_true_r in Hin.
  rewrite forallb_forall in Hin. apply elem_of_list_In, Hin in Hb. cbv beta iota in Hb. rewrite E1, E2, !N.eqb_refl in Hb. cbn [negb andb orb] in Hb.
  apply existsb_exists in Hb as (k & Hk & Hb). apply in_seq in Hk. exists k.
  destruct (sg c' ls' n' k) as [|g0 [|? ?]]; [discriminate Hb| |destruct g0; try discriminate Hb; destruct i0; try discriminate Hb; destruct m; discriminate Hb].
  destruct g0; try discriminate Hb. destruct i0; try discriminate Hb. destruct m; try discriminate Hb. apply bool_decide_eq_true in Hb as ->.
  do 4 eexists. split; [lia|reflexivity].
Qed.
Definition starts (n : node bytes) : bool :=
  bool_decide (held_in 1 0 (nd_smr n)) && (s_height (nd_st n) =? 1) && s_power (nd_st n).
Definition fits (c : crypto) (ls : list (label bytes)) (n : node bytes) (log : list (nlog bytes)) : bool :=
  in_rangeb log && schedb c ls n && all_saved (all_logs c ls n) && no_lock (all_logs c ls n) && always c four ls n &&
  low_chokes (log ++ all_logs c ls n) && starts n.
Lemma fits_ok (me : bytes) ls n log : Forall (uses (ncr me)) ls -> ndrun me log n -> fits (ncr me) ls n log = true ->
  let x := sx (ncr me) ls n in let lg := sg (ncr me) ls n in
  execution nlc ntenc ntdec true (ncr me) (nboot me None) None x (sl ls) lg /\ fair x (sl ls) lg /\
  boots ntdec true (nboot me None) None /\ b_addr (nboot me None) = me /\ served lg /\
  (forall j, auth_len (s_auth (nd_st (x j))) = 4%nat) /\
  (exists log0, noderun nlc ntenc ntdec true (ncr me) (nboot me None) None log0 (x 0%nat) /\
     forall sc, choke_seen log0 sc \/ (exists j, choke_seen (lg j) sc) -> ck_round (sc_choke sc) + 1 < 2 ^ 64) /\
  held_in 1 0 (nd_smr (x 0%nat)) /\ s_height (nd_st (x 0%nat)) = 1 /\ s_power (nd_st (x 0%nat)) = true.
Proof.
  intros Hu Hr Hf x lg. unfold fits in Hf. rewrite !andb_true_iff in Hf. destruct Hf as ((((((F1 & F2) & F3) & F4) & F5) & F6) & F7).
  unfold ndrun in Hr. destruct (sched_execution _ _ _ _ _ _ Hr F1 F2) as [He Hfa].
  split; [exact He|]. split; [exact Hfa|]. split; [reflexivity|]. split; [reflexivity|].
  assert (x 0%nat = n) as Ex by by (unfold x; destruct ls).
  split; [split|].
  - intros j e inp s o r Hin z. unfold lg in Hin. rewrite (sg_crypto _ _ _ _ _ _ _ _ _ _ Hu Hin). by eexists.
  - intros j e inp s o r Hin sigs who. unfold lg in Hin. rewrite (sg_crypto _ _ _ _ _ _ _ _ _ _ Hu Hin). by eexists.
  - intros j e i s o r w Hin Hw. apply sg_in in Hin. apply (all_saved_ok _ F3 w). unfold actions.
    apply elem_of_list_In, in_concat. exists o. split; [|by apply elem_of_list_In]. apply elem_of_list_In, elem_of_list_fmap. eexists (NState e i s o r). split; [done|exact Hin].
  - intros j e h rd lr s o r Hin. apply sg_in in Hin. unfold no_lock in F4. rewrite forallb_forall in F4. apply elem_of_list_In, F4 in Hin. by destruct lr.
  - split; [intros j; by apply Nat.eqb_eq, (always_ok _ four)|]. split.
    + exists log. rewrite Ex. split; [exact Hr|]. intros sc Hsc. apply (low_chokes_ok _ F6). unfold choke_seen. rewrite actions_app.
      destruct Hsc as [[(e & s & o & r & Hin)|Hin]|(j & [(e & s & o & r & Hin)|Hin])].
      * left. do 4 eexists. apply elem_of_app. left. exact Hin.
      * right. apply elem_of_app. by left.
      * left. do 4 eexists. apply elem_of_app. right. by eapply sg_in.
      * right. apply elem_of_app. right. unfold actions in *. apply elem_of_list_In, in_concat in Hin as (l & Hl & Hin). apply elem_of_list_In, elem_of_list_fmap in Hl as (g & -> & Hg).
        apply elem_of_list_In, in_concat. eexists. split; [|exact Hin]. apply elem_of_list_In, elem_of_list_fmap. eexists. split; [done|]. by eapply sg_in.
    + rewrite Ex. unfold starts in F7. rewrite !andb_true_iff, bool_decide_eq_true, N.eqb_eq in F7. tauto.
Qed.

(** ** The three of them *)
Definition three : list bytes := [nA; nB; nD].
Definition mnode (a : bytes) : node bytes := ndnode a (waits a).
Definition mlog (a : bytes) : list (nlog bytes) := ndlog a (waits a).
Lemma three_run : forallb (fun a => ndok a (waits a)) three = true. Proof. vm_compute. reflexivity. Qed.
Lemma three_fit : forallb (fun a => fits (ncr a) (moves a) (mnode a) (mlog a)) three = true. Proof. vm_compute. reflexivity. Qed.
Lemma three_hear : forallb (fun a => forallb (fun a' => bool_decide (a = a') || arriving (ncr a) (ncr a') (moves a) (moves a') (mnode a) (mnode a') 1 0) three) three = true.
Proof. vm_compute. reflexivity. Qed.
Lemma three_dup : NoDup three. Proof. apply (bool_decide_unpack _). vm_compute. exact I. Qed.
Lemma through_uses me m : Forall (uses (ncr me)) (through me m).
Proof. unfold through. repeat (apply Forall_cons; split; [intros e [= <-]; reflexivity|]). by apply Forall_nil. Qed.
Lemma moves_uses me : Forall (uses (ncr me)) (moves me).
Proof.
  unfold moves. repeat (apply Forall_app; split).
  all: try apply through_uses.
  all: try (repeat (apply Forall_cons; split; [intros e E; simpl in E; first [discriminate E|injection E as <-; reflexivity]|]); by apply Forall_nil).
  unfold hears. induction (others me) as [|a l IH]; [by apply Forall_nil|]. change (Forall (uses (ncr me)) (through me (nvchoke a) ++ hears me l)). apply Forall_app. split; [apply through_uses|exact IH].
Qed.
Lemma three_generic (n : bytes -> node bytes) (ls : bytes -> list (label bytes)) (log : bytes -> list (nlog bytes)) (Q : list bytes) :
  (forall a, a ∈ Q -> ndrun a (log a) (n a)) -> (forall a, Forall (uses (ncr a)) (ls a)) ->
  forallb (fun a => fits (ncr a) (ls a) (n a) (log a)) Q = true -> length Q = 3%nat ->
  forallb (fun a => forallb (fun a' => bool_decide (a = a') || arriving (ncr a) (ncr a') (ls a) (ls a') (n a) (n a') 1 0) Q) Q = true ->
  let x := fun a => sx (ncr a) (ls a) (n a) in let lab := fun a => sl (ls a) in let lg := fun a => sg (ncr a) (ls a) (n a) in
  (forall a, a ∈ Q -> execution nlc ntenc ntdec true (ncr a) (nboot a None) None (x a) (lab a) (lg a) /\ fair (x a) (lab a) (lg a) /\
     boots ntdec true (nboot a None) None /\ b_addr (nboot a None) = a /\ served (lg a)) /\
  (forall a j, a ∈ Q -> s_height (nd_st (x a j)) = 1 -> (3 * length Q > 2 * auth_len (s_auth (nd_st (x a j))))%nat) /\
  (forall a, a ∈ Q -> exists log0, noderun nlc ntenc ntdec true (ncr a) (nboot a None) None log0 (x a 0%nat) /\
     forall sc, choke_seen log0 sc \/ (exists j, choke_seen (lg a j) sc) -> ck_round (sc_choke sc) + 1 < 2 ^ 64) /\
  chokes_arrive lg Q 1 0 /\
  (forall a, a ∈ Q -> held_in 1 0 (nd_smr (x a 0%nat)) /\ s_height (nd_st (x a 0%nat)) = 1 /\ s_power (nd_st (x a 0%nat)) = true).
Proof.
  intros Hr Hu Hf Hlen Ha x lab lg.
  assert (forall a, a ∈ Q -> fits (ncr a) (ls a) (n a) (log a) = true) as Hf' by (intros a Hin; rewrite forallb_forall in Hf; by apply Hf, elem_of_list_In).
  split; [|split; [|split; [|split]]].
  - intros a Hin. destruct (fits_ok a (ls a) (n a) (log a) (Hu a) (Hr a Hin) (Hf' a Hin)) as (H1 & H2 & H3 & H4 & H5 & _). split_and!; assumption.
  - intros a j Hin _. destruct (fits_ok a (ls a) (n a) (log a) (Hu a) (Hr a Hin) (Hf' a Hin)) as (H1 & H2 & H3 & H4 & H5 & H6 & _).
    unfold x. rewrite H6, Hlen. lia.
  - intros a Hin. destruct (fits_ok a (ls a) (n a) (log a) (Hu a) (Hr a Hin) (Hf' a Hin)) as (H1 & H2 & H3 & H4 & H5 & H6 & H7 & _). exact H7.
  - intros a a' j e i s o r sc Hin Hin' Hne Hg Hb E1 E2. rewrite forallb_forall in Ha. pose proof Hin as Hin0. apply elem_of_list_In, Ha in Hin0.
    rewrite forallb_forall in Hin0. pose proof Hin' as Hin0'. apply elem_of_list_In, Hin0 in Hin0'. rewrite bool_decide_eq_false_2 in Hin0' by done. simpl in Hin0'.
    exact (arriving_ok _ _ _ _ _ _ _ _ Hin0' _ _ _ _ _ _ _ Hg Hb E1 E2).
  - intros a Hin. destruct (fits_ok a (ls a) (n a) (log a) (Hu a) (Hr a Hin) (Hf' a Hin)) as (H1 & H2 & H3 & H4 & H5 & H6 & H7 & H8). exact H8.
Qed.
(** The hypotheses of C63 hold of them, and they all start stuck in round 0. *)
Example three_together :
  let Q := three in
  let x := fun a => sx (ncr a) (moves a) (mnode a) in let lab := fun a => sl (moves a) in let lg := fun a => sg (ncr a) (moves a) (mnode a) in
  Q <> [] /\ NoDup Q /\
  (forall a, a ∈ Q -> execution nlc ntenc ntdec true (ncr a) (nboot a None) None (x a) (lab a) (lg a) /\ fair (x a) (lab a) (lg a) /\
     boots ntdec true (nboot a None) None /\ b_addr (nboot a None) = a /\ served (lg a)) /\
  (forall a j, a ∈ Q -> s_height (nd_st (x a j)) = 1 -> (3 * length Q > 2 * auth_len (s_auth (nd_st (x a j))))%nat) /\
  (forall a, a ∈ Q -> exists log0, noderun nlc ntenc ntdec true (ncr a) (nboot a None) None log0 (x a 0%nat) /\
     forall sc, choke_seen log0 sc \/ (exists j, choke_seen (lg a j) sc) -> ck_round (sc_choke sc) + 1 < 2 ^ 64) /\
  chokes_arrive lg Q 1 0 /\
  (forall a, a ∈ Q -> held_in 1 0 (nd_smr (x a 0%nat)) /\ s_height (nd_st (x a 0%nat)) = 1 /\ s_power (nd_st (x a 0%nat)) = true).
Proof.
  cbv zeta. split; [discriminate|]. split; [exact three_dup|].
  refine (three_generic mnode moves mlog three _ moves_uses three_fit eq_refl three_hear).
  intros a Hin. apply ndok_run. pose proof three_run as Hr. rewrite forallb_forall in Hr. by apply Hr, elem_of_list_In.
Qed.
(** What C63 promises is what happens: each of them enters round 1, and decides there. *)
Example three_moved :
  (fun a => let n := sx (ncr a) (moves a) (mnode a) (length (moves a)) in (m_height (nd_smr n), m_round (nd_smr n), m_step (nd_smr n), s_round (nd_st n))) <$> three =
    [(1, 1, SCommit, 1); (1, 1, SCommit, 1); (1, 1, SCommit, 1)].
Proof. vm_compute. reflexivity. Qed.
