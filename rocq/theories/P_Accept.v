(** * P_Accept: what an instance sends passes the verification of its peers (C55). *)
From Verif Require Export P_Cert P_Round.
Set Default Proof Using "Type".

(** ** Specification *)
(** The peer's cryptography accepts what the instance's own one makes: both hash alike, a signature
    of [a] is valid, and what is aggregated from valid signatures of one hash is valid. *)
Record understands (cr cr' : crypto) (a : bytes) : Prop := {
  un_hash : forall x, cr_hash cr' x = cr_hash cr x;
  un_sign : forall h sig, cr_sign cr h = Some sig -> cr_verify cr' sig h a = true;
  un_agg : forall sigs voters h g, cr_aggregate cr sigs voters = Some g ->
    Forall2 (fun sig v => cr_verify cr' sig h v = true) sigs voters -> cr_verify_agg cr' g h voters = true }.
Definition sends {T} (o : list (action T)) (m : omsg T) : Prop := ABroadcast m ∈ o \/ exists to, ATransmit to m ∈ o.
(** The vote's signature is valid for the peer. *)
Definition genuine (cr' : crypto) (v : svote) : Prop :=
  cr_verify cr' (sv_sig v) (cr_hash cr' (enc (vote_rlp (sv_vote v)))) (sv_voter v) = true.

Section A.
Context {T : Type} `{EqDecision T}.
Context (lc : lcfg) (tenc : T -> bytes) (tdec : bytes -> option T) (spill : bool).
Local Notation run := (run lc tenc tdec spill).
Local Notation react := (react lc tenc).

(** ** Everything sent is signed, certificates excepted *)
Definition signs (e : env T) (x sig : bytes) : Prop := cr_sign (e_crypto e) (cr_hash (e_crypto e) x) = Some sig.
Definition msg_signed (e : env T) (a : bytes) (m : omsg T) : Prop :=
  match m with
  | MProposal sp => p_proposer (sp_prop sp) = a /\ signs e (enc (proposal_rlp tenc (sp_prop sp))) (sp_sig sp)
  | MVote v => sv_voter v = a /\ signs e (enc (vote_rlp (sv_vote v))) (sv_sig v)
  | MAgg _ => True
  | MChoke c => sc_addr c = a /\ signs e (enc (hashchoke_rlp (choke_to_hash (sc_choke c)))) (sc_sig c)
  | _ => False
  end.
Definition act_signed (e : env T) (a : bytes) (x : action T) : Prop :=
  match x with
  | ABroadcast m => msg_signed e a m
  | ATransmit _ m => msg_signed e a m /\ forall q, m <> MAgg q
  | AOwnVote v => msg_signed e a (MVote v)
  | _ => True
  end.
Definition signedR (e : env T) (s : st T) (o : list (action T)) (s' : st T) : Prop :=
  s_addr s' = s_addr s /\ Forall (act_signed e (s_addr s)) o.
Lemma signed_comp e : comp (signedR e).
Proof.
  clear lc tdec spill. split; [intros s0; split; [done|by apply Forall_nil]|]. intros s1 s2 s3 o1 o2 [A1 A2] [B1 B2].
  split; [congruence|]. apply Forall_app. split; [done|by rewrite <-A1].
Qed.
Ltac sg := split; [done|repeat constructor; done].
Lemma signed_goto e stt : keeps (signedR e) (goto_new_height (T:=T) e stt).
Proof.
  clear lc tdec spill. intros s s' o r Hg.
  apply goto_inv in Hg as [(_ & -> & -> & _)|[(_ & _ & -> & -> & _)|[(_ & _ & -> & -> & _)|(_ & _ & -> & tr & -> & Ht)]]]; try sg.
  split; [unfold moved_full; by destruct (st_interval stt)|].
  constructor; [done|]. apply Forall_app. split.
  - apply Forall_fmap, Forall_true. done.
  - destruct Ht as [[-> _]|[-> _]]; by repeat constructor.
Qed.
Local Hint Resolve signed_goto : keepsdb.
Lemma signed_process e t : keeps (signedR e) (vote_process (T:=T) e t).
Proof. clear lc tdec spill. keeps_go (signed_comp e); sg. Qed.
Lemma signed_vote e h t lr : keeps (signedR e) (handle_vote_event (T:=T) e h t lr).
Proof.
  clear lc tdec spill. intros s s' o r Hv. apply vote_event_inv in Hv as [(-> & -> & _)|(sig & lk & Hsig & _ & Hv)]; [apply signed_comp|].
  cbv zeta in Hv. destruct Hv as [(_ & -> & -> & _)|(_ & o2 & Hv)]; [sg|].
  destruct (s_leader s); destruct Hv as [-> Hv]; apply signed_process in Hv as [Ha Hv]; (split; [exact Ha|]).
  all: constructor; [done|]; constructor; [repeat split; try done; exact Hsig|exact Hv].
Qed.
Lemma signed_save e stp lr : keeps (signedR e) (save_wal_with_lock_round (T:=T) e stp lr).
Proof. clear lc tdec spill. keeps_go (signed_comp e); sg. Qed.
Lemma signed_check e : keeps (signedR e) (check_choke_above_threshold (T:=T) e).
Proof. clear lc tdec spill. keeps_go (signed_comp e); sg. Qed.
Lemma signed_brake_tail e sc stp lr s s' o r : msg_signed e (s_addr s) (MChoke sc) ->
  bind (save_wal_with_lock_round (T:=T) e stp lr) (fun _ => bind (broadcast (MChoke sc)) (fun _ => check_choke_above_threshold e)) s = (s', o, r) ->
  signedR e s o s'.
Proof.
  clear lc tdec spill. intros Hsc Hb.
  apply bind_inv in Hb as [(u & s1 & o1 & o2 & H1 & Hb & ->)|[(x & H1 & ->)|(H1 & ->)]]; apply signed_save in H1; [|done..].
  destruct H1 as [A1 A2].
  apply bind_inv in Hb as [(u' & s2 & o3 & o4 & H2 & Hb & ->)|[(x & H2 & ->)|(H2 & ->)]]; unfold broadcast, emit in H2; simplify_eq.
  apply signed_check in Hb as [B1 B2]. split; [congruence|]. apply Forall_app. split; [done|]. constructor; [exact Hsc|by rewrite <-A1].
Qed.
Lemma signed_brake e round lr : keeps (signedR e) (handle_brake (T:=T) e round lr).
Proof.
  clear lc tdec spill. intros s s' o r Hb. unfold handle_brake, get in Hb.
  destruct (negb _); [unfold fail in Hb; simplify_eq; apply signed_comp|].
  destruct (cr_sign _ _) as [sig|] eqn:Es; [|unfold fail in Hb; simplify_eq; apply signed_comp].
  cbv zeta in Hb. revert Hb. set (sc := mkSChoke _ _ _). intros Hb.
  assert (msg_signed e (s_addr s) (MChoke sc)) as Hsc by (split; [done|exact Es]).
  apply bind_inv in Hb as [(u & s1 & o1 & o2 & H1 & Hb & ->)|[(x & H1 & ->)|(H1 & ->)]]; unfold emit in H1; simplify_eq.
  apply bind_inv in Hb as [(u' & s2 & o3 & o4 & H1 & Hb & ->)|[(x & H1 & ->)|(H1 & ->)]]; unfold modify in H1; simplify_eq.
  apply signed_brake_tail in Hb as [B1 B2]; [|exact Hsc]. split; [exact B1|]. constructor; [done|exact B2].
Qed.
Lemma signed_prop e sp : keeps (signedR e) (handle_signed_proposal (T:=T) lc e sp).
Proof. clear tdec spill. keeps_go (signed_comp e); sg. Qed.
Lemma signed_make e lr lp : keeps (signedR e) (make_proposal (T:=T) e lr lp).
Proof. clear lc tdec spill. keeps_go (signed_comp e); sg. Qed.
Lemma signed_from f e : keeps (signedR e) (set_update_from (T:=T) f).
Proof. clear lc tdec spill. keeps_go (signed_comp e); sg. Qed.
Lemma signed_propose e lr lp s s' o r : propose_part lc tenc e lr lp s = (s', o, r) -> signedR e s o s'.
Proof.
  clear tdec spill. intros Hp. apply propose_inv in Hp. destruct (get_proposer _ _ _ _) as [p|x|]; [|by destruct Hp as [-> ->]; apply signed_comp..].
  destruct (decide _) as [->|_].
  - destruct Hp as [(-> & [->| ->] & _)|(b & h & pl & om & Hm & -> & Ho)]; [sg..|].
    apply signed_make in Hm as [_ Hm]. change (s_addr (led (s_addr s) s)) with (s_addr s) in Hm.
    assert (s_addr (with_block h b (led (s_addr s) s)) = s_addr s) as Ea by (unfold with_block; by destruct (s_blocks _ !! h)).
    split; [exact Ea|].
    destruct Ho as [[-> _]|(sig & tr & Hs & -> & Ht)]; [done|]. apply Forall_app. split; [done|]. constructor; [split; [done|exact Hs]|].
    destruct Ht as [->| ->]; by repeat constructor.
  - destruct (pc_get _ _ _) as [sp| |]; [|by destruct Hp as (-> & -> & _); sg..]. by apply signed_prop in Hp.
Qed.
Lemma signed_new_round e nr lr lp from : keeps (signedR e) (handle_new_round (T:=T) lc tenc e nr lr lp from).
Proof.
  clear tdec spill. intros s s' o r Hn. apply new_round_inv in Hn as (o1 & -> & Hn).
  assert (Forall (act_signed e (s_addr s)) (view_changes nr from s)) as Hv by (unfold view_changes; destruct (_ =? _); by repeat constructor).
  destruct Hn as [(-> & _ & [[-> _]|(uf & -> & _)])|(uf & l & _ & _ & _ & [(_ & -> & -> & _)|(_ & o2 & -> & Hp)])].
  1-3: split; [done|]; apply Forall_app; split; [done|by repeat constructor].
  apply signed_propose in Hp as [B1 B2]. split; [exact B1|]. apply Forall_app. split; [done|]. constructor; [done|exact B2].
Qed.
Local Hint Resolve signed_new_round signed_brake signed_vote : keepsdb.
Lemma signed_react e i : keeps (signedR e) (react e i).
Proof.
  clear tdec spill. apply (keeps_react _ _ _ (signed_comp e)).
  - intros m _. apply (keeps_on_msg _ _ (signed_comp e)); [intros; sg|]. keeps_go (signed_comp e); sg.
  - intros m _. keeps_go (signed_comp e); sg.
  - intros m _. keeps_go (signed_comp e); sg.
  - intros m _. keeps_go (signed_comp e); sg.
Qed.
Lemma signed_tail e w : keeps (signedR e) (start_tail (T:=T) lc e w).
Proof.
  clear tdec spill. unfold start_tail. destruct (bool_decide _); [|destruct (bool_decide _)]; try destruct (wi_lock w); keeps_go (signed_comp e); sg.
Qed.

(** ** C55 *)
Lemma verify_made cr cr' a l vs q :
  understands cr cr' a -> distinct l -> total_weight l < 2 ^ 32 ->
  cr_aggregate cr (sv_sig <$> vs) (sv_voter <$> vs) = Some (as_sig (av_sig q)) ->
  (forall v, v ∈ vs -> sv_vote v = to_vote q /\ genuine cr' v) ->
  get_voters (auth_update l) (as_bitmap (av_sig q)) = sv_voter <$> vs -> verify_qc cr' (auth_update l) q = true.
Proof.
  clear. intros Hu Hd Ht Ha Hv Hg. unfold verify_qc, pv_get_voters.
  destruct (C08_threshold_exact l (as_bitmap (av_sig q)) Hd) as (t & -> & _); [lia|]. simpl. rewrite Hg.
  eapply un_agg; [exact Hu|exact Ha|]. clear Ha Hg. induction vs as [|v vs IH]; [constructor|].
  constructor; [|apply IH; intros; apply Hv; by right]. destruct (Hv v) as [E Hv']; [left|]. unfold genuine in Hv'. by rewrite E in Hv'.
Qed.
Theorem C55_sent_messages_pass_verification :
  forall b is o s e i s' o' r cr' m,
    run b is o s true -> react e i s = (s', o', r) -> sends o' m -> understands (e_crypto e) cr' (b_addr b) ->
    match m with
    | MVote _ | MChoke _ => forall a, verify_msg tenc cr' a m = true
    | MProposal sp =>
        get_proposer lc (s_auth s) (p_height (sp_prop sp)) (p_round (sp_prop sp)) = Ok (p_proposer (sp_prop sp)) /\
        (forall a, (forall k q, p_lock (sp_prop sp) = Some (mkPoLC k q) -> verify_qc cr' a q = true) -> verify_msg tenc cr' a m = true)
    | MAgg q =>
        exists l, s_auth s = auth_update l /\ supplied b is o l /\
          (distinct l -> total_weight l < 2 ^ 32 ->
           (forall v, vote_known (is ++ [(e, i)]) (o ++ o') v -> sv_vote v = to_vote q -> genuine cr' v) ->
           verify_msg tenc cr' (auth_update l) m = true)
    | _ => False
    end.
Proof.
  intros b is o s e i s' o' r cr' m Hrun Hr Hs Hu.
  pose proof (run_run_inv _ _ _ _ _ _ _ _ _ Hrun) as [_ _ _ _ _ Had].
  pose proof (signed_react _ _ _ _ _ _ Hr) as [_ Hf]. rewrite Had in Hf.
  assert (msg_signed e (b_addr b) m) as Hm.
  { destruct Hs as [Hs|(to & Hs)]; apply (proj1 (Forall_forall _ _) Hf) in Hs; [exact Hs|by destruct Hs]. }
  assert (forall x sig, signs e x sig -> cr_verify cr' sig (cr_hash cr' x) (b_addr b) = true) as Hv.
  { intros x sig Hx. apply (un_sign _ _ _ Hu). rewrite (un_hash _ _ _ Hu). exact Hx. }
  destruct m as [sp|v|q|stt|c|]; unfold msg_signed in Hm; try done.
  - destruct Hm as [Hp Hm]. split.
    + destruct (C40_proposals_sent lc tenc tdec spill _ _ _ _ _ _ _ _ _ Hrun Hr) as [E|(h & nr & lr & lp & from & iv & cfg & sp' & _ & E & H1 & H2 & _ & _ & H3 & _)];
        assert (sp ∈ sent_props o') as Hin.
      1, 3: apply elem_of_list_omap; destruct Hs as [Hs|(to & Hs)]; eexists; (split; [exact Hs|done]).
      * rewrite E in Hin. by apply elem_of_nil in Hin.
      * rewrite E in Hin. apply elem_of_list_singleton in Hin as ->. by rewrite Hp.
    + intros a Hl. rewrite <-Hp in Hv. unfold verify_msg. rewrite (Hv _ _ Hm). destruct (p_lock (sp_prop sp)) as [[k q]|]; [by eapply Hl|done].
  - destruct Hm as [Hp Hm]. intros a. rewrite <-Hp in Hv. exact (Hv _ _ Hm).
  - destruct Hs as [Hs|(to & Hs)]; [|apply (proj1 (Forall_forall _ _) Hf) in Hs; by destruct Hs as [_ Hs]; destruct (Hs q)].
    destruct (C39_certificate_backed_by_votes lc tenc tdec spill _ _ _ _ _ _ _ _ _ _ Hrun Hr Hs) as (_ & _ & _ & l & vs & Hl & Hsup & Hvs & _ & Hag & Hd).
    exists l. split; [done|]. split; [done|]. intros Hd' Ht Hg. destruct (Hd Hd' Ht) as (_ & _ & Hgv).
    eapply verify_made; [exact Hu|done|done|exact Hag| |exact Hgv]. intros v Hv'. destruct (Hvs v Hv') as (H1 & H2 & _). split; [done|by apply Hg].
  - destruct Hm as [Hp Hm]. intros a. rewrite <-Hp in Hv. exact (Hv _ _ Hm).
Qed.
Definition chokes_only (_ : st T) (o : list (action T)) (_ : st T) : Prop :=
  Forall (fun a => match a with ABroadcast (MChoke _) => True | ABroadcast _ | ATransmit _ _ => False | _ => True end) o.
Lemma choke_comp : comp chokes_only.
Proof. clear. split; [intros s0; by apply Forall_nil|intros s1 s2 s3 o1 o2 H1 H2; by apply Forall_app]. Qed.
Lemma choke_goto e stt : keeps chokes_only (goto_new_height (T:=T) e stt).
Proof.
  clear. intros s s' o r Hg.
  apply goto_inv in Hg as [(_ & _ & -> & _)|[(_ & _ & _ & -> & _)|[(_ & _ & _ & -> & _)|(_ & _ & _ & tr & -> & Ht)]]]; try by repeat constructor.
  constructor; [done|]. apply Forall_app. split; [apply Forall_fmap, Forall_true; done|]. destruct Ht as [[-> _]|[-> _]]; by repeat constructor.
Qed.
Local Hint Resolve choke_goto : keepsdb.
Lemma choke_tail e w : keeps chokes_only (start_tail (T:=T) lc e w).
Proof.
  clear tenc tdec spill. unfold start_tail. destruct (bool_decide _); [|destruct (bool_decide _)]; try destruct (wi_lock w); keeps_go choke_comp; by repeat constructor.
Qed.
(** When it restarts an instance sends at most a choke, and that is accepted too. *)
Theorem C55_choke_at_start_passes_verification :
  forall b o s al cr' m,
    run b [] o s al -> sends o m -> understands (e_crypto (b_env b)) cr' (b_addr b) ->
    (exists c, m = MChoke c) /\ forall a, verify_msg tenc cr' a m = true.
Proof.
  intros b o s al cr' m Hrun Hs Hu.
  inversion Hrun as [s0 o0 r0 Hst|? ? ? ? ? ? ? ? ? ? E]; [|by destruct is]. subst.
  unfold on_start in Hst. apply logged_inv in Hst as (r' & Hst & _).
  apply start_inv in Hst as [(_ & [->|(t & -> & _)])|(w & bs & Hw & Hd & _ & [[_ ->]|(p & Hg & Ht)])].
  1-3: exfalso; destruct Hs as [Hs|(to & Hs)]; try (by apply elem_of_nil in Hs); by apply elem_of_list_singleton in Hs.
  pose proof (choke_tail _ _ _ _ _ _ Ht) as Hc. apply signed_tail in Ht as [_ Hf]. simpl in Hf.
  destruct Hs as [Hs|(to & Hs)]; apply (proj1 (Forall_forall _ _) Hc) in Hs as Hx; [|done]. destruct m as [| | | |c|]; try done.
  split; [by exists c|]. apply (proj1 (Forall_forall _ _) Hf) in Hs as [Hp Hm].
  intros a. unfold verify_msg. rewrite Hp.
  replace (s_addr (loaded_state _ _ _ _)) with (b_addr b) by (unfold loaded_state; repeat case_match; done).
  apply (un_sign _ _ _ Hu). rewrite (un_hash _ _ _ Hu). exact Hm.
Qed.
End A.

(** ** Examples *)
(** The cryptography of the examples understands itself. *)
Example ncr_understands me peer : understands (ncr me) (ncr peer) me.
Proof.
  split; simpl; [done|intros h sig [= <-]; by apply bool_decide_eq_true|].
  intros sigs voters h g [= <-] F. apply bool_decide_eq_true. f_equal.
  induction F as [|sig v sigs vs E F IH]; [done|]. apply bool_decide_eq_true in E. rewrite fmap_cons, <-IH. by rewrite E.
Qed.
(** B builds the certificate of [built_history] from genuine votes, A accepts it. *)
Definition cast_votes (is : list (env bytes * input bytes)) (o : list (action bytes)) : list svote :=
  omap (fun x => match x.2 with IMsg (MVote v) => Some v | _ => None end) is ++
  omap (fun a => match a with AOwnVote v => Some v | _ => None end) o.
Lemma cast_known is o v : vote_known is o v -> v ∈ cast_votes is o.
Proof.
  intros [[e Hv]|Hv]; apply elem_of_app; [left|right]; apply elem_of_list_omap; eexists; (split; [exact Hv|done]).
Qed.
Example C55_example :
  let s := nstate nB None built_history in
  let i := IMsg (MVote (nvote nC 1 0 Prevote hsh)) in
  let q := nqc xe0 [nA; nB; nC] nB 1 0 Prevote hsh in
  let x := react nlc ntenc (nenv nB true) i s in
  nrun nB None built_history (nouts nB None built_history) s true /\ sends x.1.2 (MAgg q) /\
  understands (e_crypto (nenv nB true)) (ncr nA) nB /\ distinct nvals /\ total_weight nvals < 2 ^ 32 /\
  (forall v, vote_known (built_history ++ [(nenv nB true, i)]) (nouts nB None built_history ++ x.1.2) v ->
     sv_vote v = to_vote q -> genuine (ncr nA) v) /\
  verify_msg ntenc (ncr nA) (auth_update nvals) (MAgg (T:=bytes) q) = true.
Proof.
  cbv zeta. split; [apply nstate_run; by vm_compute|].
  split; [left; apply elem_of_list_In; vm_compute; tauto|]. split; [apply ncr_understands|].
  split; [unfold distinct; apply (bool_decide_unpack _); vm_compute; exact I|]. split; [by vm_compute|]. split; [|by vm_compute].
  intros v Hv%cast_known _. revert Hv. unfold genuine.
  generalize (eq_refl : forallb (fun v => cr_verify (ncr nA) (sv_sig v) (cr_hash (ncr nA) (enc (vote_rlp (sv_vote v)))) (sv_voter v))
    (cast_votes (built_history ++ [(nenv nB true, IMsg (MVote (nvote nC 1 0 Prevote hsh)))])
       (nouts nB None built_history ++ (react nlc ntenc (nenv nB true) (IMsg (MVote (nvote nC 1 0 Prevote hsh))) (nstate nB None built_history)).1.2)) = true).
  intros F Hv. rewrite forallb_forall in F. apply F. by apply elem_of_list_In.
Qed.
(** Everything B sends while it leads height 1 is accepted by A, and everything A sends by B. *)
Definition sent_by (o : list (action bytes)) : list (omsg bytes) :=
  omap (fun a => match a with ABroadcast m | ATransmit _ m => Some m | _ => None end) o.
Example C55_sent_example :
  length (sent_by (nouts nB None leader_history)) = 3%nat /\ length (sent_by (nouts nA None follower_history)) = 2%nat /\
  forallb (verify_msg ntenc (ncr nA) (auth_update nvals)) (sent_by (nouts nB None leader_history)) = true /\
  forallb (verify_msg ntenc (ncr nB) (auth_update nvals)) (sent_by (nouts nA None follower_history)) = true.
Proof. split_and!; by vm_compute. Qed.
