(** * P_CommitEx: three instances on one clock that meet the hypotheses of P_Commit (C65, C66). *)
From Verif Require Export P_Commit P_TogetherEx.
Set Default Proof Using "Type".

(** A, B and C (three of four validators) are told of height 1; B leads round 0. B proposes, all
    three prevote B's block and precommit it, and commit it. While an instance waits for the others
    it is told of height 1 again. *)
Definition pvote (t : vtype) (a : bytes) : omsg bytes := MVote (nvote a 1 0 t hsh).
Definition pcert (t : vtype) : omsg bytes := MAgg (nqc xe0 [nA; nB; nC] nB 1 0 t hsh).
Definition joins (me : bytes) : list (label bytes) := status_through me (nstatus 1) ++ [LSmr].
Definition again (me : bytes) : list (label bytes) := status_through me (nstatus 1).
Definition ends (me : bytes) : list (label bytes) :=
  [LSmr; LArm; LEvent (nocommit me); LExpire 0; LFire; LExpire 0; LFire; LExpire 0; LFire; LSmr; LSmr; LSmr].
Definition leads : list (label bytes) :=
  let e := nenv nB true in
  [LEvent e; LArm; LSmr; LArm; LEvent e; LCheck 0 true; LResp e] ++ again nB ++
  through nB (pvote Prevote nA) ++ through nB (pvote Prevote nC) ++ [LSmr; LEvent e; LArm] ++ again nB ++
  through nB (pvote Precommit nA) ++ through nB (pvote Precommit nC) ++ ends nB.
Definition follows (me : bytes) : list (label bytes) :=
  let e := nenv me true in
  [LEvent e; LArm] ++ through me (MProposal (nprop nB 1 0 blk None)) ++ [LSmr; LArm; LEvent e; LCheck 0 true; LResp e] ++ again me ++ again me ++
  through me (pcert Prevote) ++ [LSmr; LEvent e; LArm] ++ again me ++ again me ++ through me (pcert Precommit) ++ ends me.
Definition plays (me : bytes) : list (label bytes) := if decide (me = nB) then leads else follows me.
Definition trio : list bytes := [nA; nB; nC].
Definition tnode (a : bytes) : node bytes := ndnode a (joins a).
Definition tlog (a : bytes) : list (nlog bytes) := ndlog a (joins a).

Lemma trio_run : forallb (fun a => ndok a (joins a)) trio = true. Proof. vm_compute. reflexivity. Qed.
Lemma trio_fit : forallb (fun a => in_rangeb (tlog a) && schedb (ncr a) (plays a) (tnode a)) trio = true. Proof. vm_compute. reflexivity. Qed.

(** Booleans for the hypotheses about B *)
Definition castsb (a : bytes) (t : vtype) (g : list (nlog bytes)) : bool :=
  match g with
  | [NState _ i s o _] => (s_height s =? 1) && (s_round s =? 0) && s_power s &&
      existsb (fun v => bool_decide (sv_voter v = a) && bool_decide (sv_vote v = mkVote 1 0 t hsh))
        (match i with IMsg (MVote v) => [v] | _ => [] end ++ omap (fun x => match x with AOwnVote v => Some v | _ => None end) o)
  | _ => false end.
Definition gathersb (t : vtype) (ls : list (label bytes)) (n : node bytes) (a : bytes) : bool :=
  existsb (fun k => castsb a t (sg (ncr nB) ls n k)) (seq 0 (length ls)).
Definition nocert (log : list (nlog bytes)) : bool :=
  forallb (fun a => match a with ABroadcast (MAgg _) => false | _ => true end) (actions log).
Definition certs_heard (c c' : crypto) (ls ls' : list (label bytes)) (n n' : node bytes) : bool :=
  forallb (fun j => forallb (fun g => match g with
    | NState _ _ _ o _ => forallb (fun a => match a with
        | ABroadcast (MAgg q) => existsb (fun k => match sg c' ls' n' k with [NState _ (IMsg (MAgg q')) _ _ _] => bool_decide (q' = q) | _ => false end) (seq j (length ls'))
        | _ => true end) o
    | _ => true end) (sg c ls n j)) (seq 0 (length ls)).
Lemma trio_b : let n := tnode nB in let log := tlog nB in let all := log ++ all_logs (ncr nB) leads n in
  all_saved all && in_forceb nvals 1 all && all_forb all hsh && nocert log &&
  forallb (fun a => gathersb Prevote leads n a && gathersb Precommit leads n a) trio = true.
Proof. vm_compute. reflexivity. Qed.
Lemma trio_hear : forallb (fun a => bool_decide (a = nB) || certs_heard (ncr nB) (ncr a) leads (plays a) (tnode nB) (tnode a)) trio = true.
Proof. vm_compute. reflexivity. Qed.
Lemma trio_commit : (fun a => (fun x => (x.1, c_content x.2)) <$> committed (all_logs (ncr a) (plays a) (tnode a))) <$> trio = [[(1, blk)]; [(1, blk)]; [(1, blk)]].
Proof. vm_compute. reflexivity. Qed.

(** ** What the booleans say *)
Lemma castsb_ok a t g : castsb a t g = true -> exists e i s o r v, g = [NState e i s o r] /\ s_height s = 1 /\ s_round s = 0 /\ s_power s = true /\
  sv_voter v = a /\ sv_vote v = mkVote 1 0 t hsh /\ (i = IMsg (MVote v) \/ AOwnVote v ∈ o).
Proof.
  unfold castsb. destruct g as [|g0 [|? ?]]; [discriminate| |by destruct g0]. destruct g0 as [| |e i s o r| | | | | |]; try discriminate.
  rewrite !andb_true_iff, !N.eqb_eq. intros (((H1 & H2) & H3) & (v & Hv & [H4 H5]%andb_true_iff)%existsb_exists).
  apply bool_decide_eq_true in H4, H5. exists e, i, s, o, r, v. split_and!; try done.
  apply elem_of_list_In, elem_of_app in Hv as [Hv|Hv]; [left|right].
  - destruct i as [| | |m]; try (by apply elem_of_nil in Hv). destruct m; try (by apply elem_of_nil in Hv). by apply elem_of_list_singleton in Hv as ->.
  - apply elem_of_list_omap in Hv as (y & Hy & E). destruct y; try discriminate E. by injection E as ->.
Qed.
Lemma gathersb_ok t ls n a : gathersb t ls n a = true -> exists k, gathers (sg (ncr nB) ls n) 1 0 t hsh a k.
Proof. intros (k & _ & Hk)%existsb_exists. exists k. by apply castsb_ok. Qed.
Lemma nocert_ok log q : nocert log = true -> ABroadcast (MAgg q) ∉ actions log.
Proof. unfold nocert. rewrite forallb_forall. intros H Hin. apply elem_of_list_In, H in Hin. done. Qed.
Lemma certs_heard_ok c c' ls ls' n n' : certs_heard c c' ls ls' n n' = true ->
  forall j e i s o rr q, sg c ls n j = [NState e i s o rr] -> ABroadcast (MAgg q) ∈ o ->
  exists k, (j <= k)%nat /\ exists e' s' o' r', sg c' ls' n' k = [NState e' (IMsg (MAgg q)) s' o' r'].
Proof.
  intros Ha j e i s o rr q Hg Hb. unfold certs_heard in Ha. rewrite forallb_forall in Ha. specialize (Ha j).
  destruct (le_lt_dec (length ls) j) as [Hj|Hj]; [rewrite sg_end in Hg by done; discriminate Hg|].
  assert (In j (seq 0 (length ls))) as Hin by (apply in_seq; lia). apply Ha in Hin. rewrite Hg in Hin. cbn [forallb] in Hin. rewrite andb_true_r in Hin.
  rewrite forallb_forall in Hin. apply elem_of_list_In, Hin in Hb. cbv beta iota in Hb.
  apply existsb_exists in Hb as (k & Hk & Hb). apply in_seq in Hk. exists k. split; [lia|].
  destruct (sg c' ls' n' k) as [|g0 [|? ?]]; [discriminate Hb| |destruct g0; try discriminate Hb; destruct i0; try discriminate Hb; destruct m; discriminate Hb].
  destruct g0; try discriminate Hb. destruct i0; try discriminate Hb. destruct m; try discriminate Hb. apply bool_decide_eq_true in Hb as ->.
  do 4 eexists. reflexivity.
Qed.
Lemma upto_all c ls n log j g : g ∈ upto (sg c ls n) log j -> g ∈ log ++ all_logs c ls n.
Proof. intros [Hg|(i & _ & Hg)]%upto_where; apply elem_of_app; [by left|right; by eapply sg_in]. Qed.
Lemma actions_in (log log' : list (nlog bytes)) a : (forall g, g ∈ log -> g ∈ log') -> a ∈ actions log -> a ∈ actions log'.
Proof.
  intros H Ha. unfold actions in *. apply elem_of_list_In, in_concat in Ha as (o & Ho & Ha). apply elem_of_list_In, elem_of_list_fmap in Ho as (g & -> & Hg).
  apply elem_of_list_In, in_concat. eexists. split; [|exact Ha]. apply elem_of_list_In, elem_of_list_fmap. eexists. split; [done|]. by apply H.
Qed.
Lemma plays_uses me : Forall (uses (ncr me)) (plays me).
Proof.
  unfold plays. destruct (decide (me = nB)) as [->|]; unfold leads, follows, again, ends, status_through.
  all: repeat (apply Forall_app; split); try apply through_uses.
  all: try (repeat (apply Forall_cons; split; [intros e E; simpl in E; first [discriminate E|injection E as <-; reflexivity]|]); by apply Forall_nil).
Qed.
Lemma trio_generic (n : bytes -> node bytes) (log : bytes -> list (nlog bytes)) :
  (forall a, a ∈ trio -> ndrun a (log a) (n a)) ->
  forallb (fun a => in_rangeb (log a) && schedb (ncr a) (plays a) (n a)) trio = true ->
  (let all := log nB ++ all_logs (ncr nB) leads (n nB) in
   all_saved all && in_forceb nvals 1 all && all_forb all hsh && nocert (log nB) &&
   forallb (fun a => gathersb Prevote leads (n nB) a && gathersb Precommit leads (n nB) a) trio = true) ->
  forallb (fun a => bool_decide (a = nB) || certs_heard (ncr nB) (ncr a) leads (plays a) (n nB) (n a)) trio = true ->
  let x := fun a => sx (ncr a) (plays a) (n a) in let lab := fun a => sl (plays a) in let lg := fun a => sg (ncr a) (plays a) (n a) in
  (forall a, a ∈ trio -> (execution nlc ntenc ntdec true (ncr a) (nboot a None) None (x a) (lab a) (lg a) /\
     fair (x a) (lab a) (lg a) /\ boots ntdec true (nboot a None) None) /\ P_Answer.signs (lg a)) /\
  (forall t, collects nlc ntenc ntdec true (ncr nB) (nboot nB None) None (x nB) (lg nB) (log nB) nvals 1 0 t) /\
  (forall t, gathered (lg nB) (log nB) nvals 1 0 t hsh trio) /\
  (forall t, certs_arrive lg nB trio 1 0 t hsh).
Proof.
  intros Hr Hf Hb Ha x lab lg. cbv zeta in Hb. rewrite !andb_true_iff in Hb. destruct Hb as ((((B1 & B2) & B3) & B4) & B5).
  assert (plays nB = leads) as EB by (unfold plays; by rewrite decide_True).
  assert (nB ∈ trio) as HB by (right; left).
  assert (forall a, x a 0%nat = n a) as Ex by (intros a; unfold x; by destruct (plays a)).
  assert (forall v j, seen (upto (lg nB) (log nB) j) v -> seen (log nB ++ all_logs (ncr nB) leads (n nB)) v) as Hall.
  { intros v j [(e & s & o & r & Hin)|Hin].
    - left. unfold lg in Hin. rewrite EB in Hin. apply upto_all in Hin. eauto.
    - right. eapply actions_in; [|exact Hin]. intros g Hg. unfold lg in Hg. rewrite EB in Hg. by apply upto_all in Hg. }
  split; [|split; [|split]].
  - intros a Hin. rewrite forallb_forall in Hf. pose proof (Hf a (proj1 (elem_of_list_In _ _) Hin)) as [F1 F2]%andb_true_iff.
    destruct (sched_execution _ _ _ _ _ _ (Hr a Hin) F1 F2) as [He Hfa]. split; [split; [exact He|split; [exact Hfa|reflexivity]]|].
    intros j e inp s o r Hg z. unfold lg in Hg. rewrite (sg_crypto _ _ _ _ _ _ _ _ _ _ (plays_uses a) Hg). by eexists.
  - intros t. split.
    + rewrite Ex. by apply Hr.
    + intros j w Hin. eapply (all_saved_ok _ B1 w). eapply actions_in; [|exact Hin]. intros g Hg. unfold lg in Hg. rewrite EB in Hg. by apply upto_all in Hg.
    + intros j e i s o r Hin Hs. unfold lg in Hin. rewrite EB in Hin. apply upto_all in Hin. by apply (in_forceb_ok _ _ _ B2 e i s o r).
    + exact nvals_distinct.
    + done.
    + right; left.
    + intros q Hin. by apply (nocert_ok _ q) in B4.
    + intros j e i s o r Hg sigs who. unfold lg in Hg. rewrite (sg_crypto _ _ _ _ _ _ _ _ _ _ (plays_uses nB) Hg). by eexists.
  - intros t. split; [done|]. split.
    + intros a Hin. split.
      * apply elem_of_cons in Hin as [->|Hin]; [left|]. apply elem_of_cons in Hin as [->|Hin]; [right; left|]. apply elem_of_list_singleton in Hin as ->. right; right; left.
      * rewrite forallb_forall in B5. apply elem_of_list_In, B5, andb_true_iff in Hin as [H1 H2]. unfold lg. rewrite EB.
        destruct t; [by apply gathersb_ok|by apply gathersb_ok].
    + intros v Hs _ _ _ _. eapply all_forb_ok; [exact B3|]. destruct Hs as [Hs|(j & Hs)].
      * by apply (Hall v 0%nat).
      * apply (Hall v (S j)). simpl. destruct Hs as [(e & s & o & r & Hg)|Hg].
        -- left. exists e, s, o, r. apply elem_of_app. by right.
        -- right. rewrite actions_app. apply elem_of_app. by right.
  - intros t a j q Hin (e & i & s & o & r & Hg & _ & _ & _ & _ & Hbr & _). rewrite forallb_forall in Ha.
    apply elem_of_list_In, Ha, orb_true_iff in Hin as [->%bool_decide_eq_true|Hin]; [exists j; by left|].
    unfold lg in Hg. rewrite EB in Hg. destruct (certs_heard_ok _ _ _ _ _ _ Hin _ _ _ _ _ _ _ Hg Hbr) as (k & Hk & e' & s' & o' & r' & Hg'). exists k. right. split; [done|]. eauto.
Qed.
(** The hypotheses of all three theorems of C65 are met, with A, B and C as quorum and as audience. *)
Example trio_meets :
  let x := fun a => sx (ncr a) (plays a) (tnode a) in let lab := fun a => sl (plays a) in let lg := fun a => sg (ncr a) (plays a) (tnode a) in
  (forall a, a ∈ trio -> (execution nlc ntenc ntdec true (ncr a) (nboot a None) None (x a) (lab a) (lg a) /\
     fair (x a) (lab a) (lg a) /\ boots ntdec true (nboot a None) None) /\ P_Answer.signs (lg a)) /\
  (forall t, collects nlc ntenc ntdec true (ncr nB) (nboot nB None) None (x nB) (lg nB) (tlog nB) nvals 1 0 t) /\
  (forall t, gathered (lg nB) (tlog nB) nvals 1 0 t hsh trio) /\
  (forall t, certs_arrive lg nB trio 1 0 t hsh).
Proof.
  apply trio_generic.
  - intros a Ha. apply ndok_run. pose proof trio_run as Hr. rewrite forallb_forall in Hr. by apply Hr, elem_of_list_In.
  - exact trio_fit.
  - exact trio_b.
  - exact trio_hear.
Qed.

(** ** The further hypotheses of C66: A, B and C take the block up, while they wait for a proposal *)
Definition takesb (g : list (nlog bytes)) (m : smr) : bool :=
  match g with
  | [NState _ _ s o _] => (s_height s =? 1) && s_power s && bool_decide (waiting 1 0 m) &&
      existsb (fun a => match a with ACheck h r y _ => (h =? 1) && (r =? 0) && bool_decide (y = hsh) | _ => false end) o
  | _ => false end.
Definition takes_upb (c : crypto) (ls : list (label bytes)) (n : node bytes) : bool :=
  existsb (fun k => takesb (sg c ls n k) (nd_smr (sx c ls n k))) (seq 0 (length ls)).
Lemma trio_take : forallb (fun a => takes_upb (ncr a) (plays a) (tnode a)) trio = true.
Proof. vm_compute. reflexivity. Qed.
Lemma takes_upb_ok (n : bytes -> node bytes) a : takes_upb (ncr a) (plays a) (n a) = true ->
  exists k, takes_up (fun a => sg (ncr a) (plays a) (n a)) a 1 0 hsh k /\ waiting 1 0 (nd_smr (sx (ncr a) (plays a) (n a) k)).
Proof.
  intros (k & _ & Hk)%existsb_exists. exists k. unfold takes_up. destruct (sg (ncr a) (plays a) (n a) k) as [|g0 [|? ?]]; [discriminate Hk| |by destruct g0].
  destruct g0; try discriminate Hk. unfold takesb in Hk. rewrite !andb_true_iff, N.eqb_eq, existsb_exists in Hk.
  destruct Hk as (((H1 & H2) & H3%bool_decide_eq_true) & (y & Hin & Hy)). split; [|exact H3].
  do 5 eexists. split; [reflexivity|]. split; [|done].
  destruct y; try discriminate Hy. apply andb_true_iff in Hy as [[E1%N.eqb_eq E2%N.eqb_eq]%andb_true_iff E3%bool_decide_eq_true].
  subst. eexists. by apply elem_of_list_In.
Qed.
(** With [trio_meets]: all hypotheses of C66 are met, and nobody misses the proposal. *)
Example trio_takes_up : let lg := fun a => sg (ncr a) (plays a) (tnode a) in
  forall a, a ∈ trio -> exists k, takes_up lg a 1 0 hsh k /\ waiting 1 0 (nd_smr (sx (ncr a) (plays a) (tnode a) k)).
Proof.
  intros lg a Ha. apply (takes_upb_ok tnode). pose proof trio_take as H. rewrite forallb_forall in H. by apply H, elem_of_list_In.
Qed.
