(** * StateTac: reasoning about the handlers of State.v. *)
From Verif Require Export State CollProofs.

Section Inv.
Context {T : Type}.
Lemma bind_inv {A B} (x : M T A) (k : A -> M T B) s s' o r :
  bind x k s = (s', o, r) ->
  (exists a s1 o1 o2, x s = (s1, o1, Ok a) /\ k a s1 = (s', o2, r) /\ o = o1 ++ o2) \/
  (exists e, x s = (s', o, Err e) /\ r = Err e) \/ (x s = (s', o, Panic) /\ r = Panic).
Proof.
  unfold bind. destruct (x s) as [[s1 o1] [a|e|]] eqn:E.
  - destruct (k a s1) as [[s2 o2] r2] eqn:E2. intros; simplify_eq. left. eauto 10.
  - intros; simplify_eq. right. left. eauto.
  - intros; simplify_eq. right. right. done.
Qed.
Lemma logged_inv (x : M T unit) s s' o r :
  logged x s = (s', o, r) ->
  exists r', x s = (s', o, r') /\ ((r' = Panic /\ r = Panic) \/ (r' <> Panic /\ r = Ok tt)).
Proof.
  unfold logged. destruct (x s) as [[s1 o1] [a|e|]] eqn:E; intros; simplify_eq; eexists; split; eauto.
Qed.
End Inv.

Ltac minv1 :=
  match goal with
  | H : bind _ _ _ = (_, _, _) |- _ =>
      let a := fresh "a" in let s1 := fresh "s1" in let o1 := fresh "o1" in let o2 := fresh "o2" in
      let H1 := fresh "H" in let H2 := fresh "H" in let e := fresh "e" in let H3 := fresh "H" in
      apply bind_inv in H as [(a & s1 & o1 & o2 & H1 & H2 & H3)|[(e & H1 & H3)|(H1 & H3)]];
      first [discriminate H3 | simplify_eq H3; intros]; subst
  | H : logged _ _ = (_, _, _) |- _ =>
      let r := fresh "r" in let H1 := fresh "H" in let H2 := fresh "H" in
      let H3 := fresh "H" in apply logged_inv in H as (r & H1 & [[H2 H3]|[H2 H3]]);
      first [discriminate H3 | simplify_eq H3; intros]; subst
  | H : get _ _ = (_, _, _) |- _ => unfold get at 1 in H
  | H : ret _ _ = (_, _, _) |- _ => unfold ret in H; simplify_eq
  | H : fail _ _ = (_, _, _) |- _ => unfold fail in H; simplify_eq
  | H : lift _ _ = (_, _, _) |- _ => unfold lift in H; simplify_eq
  | H : modify _ _ = (_, _, _) |- _ => unfold modify in H; simplify_eq
  | H : emit _ _ = (_, _, _) |- _ => unfold emit in H; simplify_eq
  | H : broadcast _ _ = (_, _, _) |- _ => unfold broadcast in H
  | H : transmit _ _ = (_, _, _) |- _ => unfold transmit in H
  | H : (if ?b then _ else _) _ = (_, _, _) |- _ => let E := fresh "E" in destruct b eqn:E
  | H : (match ?x with _ => _ end) _ = (_, _, _) |- _ => let E := fresh "E" in destruct x eqn:E
  | H : (let '(_, _) := ?x in _) _ = (_, _, _) |- _ => let E := fresh "E" in destruct x eqn:E
  end.
Ltac minv := repeat (minv1; try done).

(** A relation between the state before, the actions and the state after that is reflexive and
    composes. *)
Record comp {T} (P : st T -> list (action T) -> st T -> Prop) : Prop := mkComp {
  comp_refl : forall s, P s [] s;
  comp_app : forall s1 s2 s3 o1 o2, P s1 o1 s2 -> P s2 o2 s3 -> P s1 (o1 ++ o2) s3 }.
Definition keeps {T A} (P : st T -> list (action T) -> st T -> Prop) (x : M T A) : Prop :=
  forall s s' o r, x s = (s', o, r) -> P s o s'.

Section Keeps.
Context {T : Type} (P : st T -> list (action T) -> st T -> Prop) (HP : comp P).
Lemma keeps_bind {A B} (x : M T A) (k : A -> M T B) :
  keeps P x -> (forall a, keeps P (k a)) -> keeps P (bind x k).
Proof.
  intros Hx Hk s s' o r H. apply bind_inv in H as [(a & s1 & o1 & o2 & H1 & H2 & ->)|[(e & H1 & ->)|(H1 & ->)]].
  - eapply comp_app; [done| |]; [eapply Hx|eapply Hk]; eauto.
  - eapply Hx; eauto.
  - eapply Hx; eauto.
Qed.
Lemma keeps_get {A} (f : st T -> M T A) : (forall s0, keeps P (f s0)) -> keeps P (get f).
Proof. intros H s s' o r E. unfold get in E. eapply H; eauto. Qed.
Lemma keeps_ret {A} (a : A) : keeps P (ret a).
Proof. intros s s' o r E. unfold ret in E. simplify_eq. by apply comp_refl. Qed.
Lemma keeps_fail {A} e : keeps P (fail (A:=A) e).
Proof. intros s s' o r E. unfold fail in E. simplify_eq. by apply comp_refl. Qed.
Lemma keeps_lift {A} (x : res A) : keeps P (lift x).
Proof. intros s s' o r E. unfold lift in E. simplify_eq. by apply comp_refl. Qed.
Lemma keeps_modify f : (forall s, P s [] (f s)) -> keeps P (modify f).
Proof. intros H s s' o r E. unfold modify in E. simplify_eq. apply H. Qed.
Lemma keeps_emit a : (forall s, P s [a] s) -> keeps P (emit a).
Proof. intros H s s' o r E. unfold emit in E. simplify_eq. apply H. Qed.
Lemma keeps_logged (x : M T unit) : keeps P x -> keeps P (logged x).
Proof. intros H s s' o r E. apply logged_inv in E as (r' & E & _). eapply H; eauto. Qed.
End Keeps.

Ltac keeps_step HP :=
  match goal with
  | |- keeps _ (bind _ _) => apply (keeps_bind _ HP); [|intro]
  | |- keeps _ (get _) => apply keeps_get; intro
  | |- keeps _ (ret _) => apply (keeps_ret _ HP)
  | |- keeps _ (fail _) => apply (keeps_fail _ HP)
  | |- keeps _ (lift _) => apply (keeps_lift _ HP)
  | |- keeps _ (logged _) => apply keeps_logged
  | |- keeps _ (modify _) => apply keeps_modify; intro
  | |- keeps _ (emit _) => apply keeps_emit; intro
  | |- keeps _ (broadcast _) => unfold broadcast
  | |- keeps _ (transmit _) => unfold transmit
  | |- keeps _ (let '(_, _) := ?x in _) => destruct x eqn:?
  | |- keeps _ (if ?b then _ else _) => destruct b eqn:?
  | |- keeps _ (match ?x with _ => _ end) => destruct x eqn:?
  end.

(** Unfolds one handler. *)
Ltac head_of t := match t with ?f _ => head_of f | _ => t end.
Ltac unfold_handler :=
  match goal with |- keeps _ ?x =>
    let h := head_of x in
    match h with
    | @start_with_wal => unfold start_with_wal | @handle_commit => unfold handle_commit
    | @goto_new_height => unfold goto_new_height | @handle_brake => unfold handle_brake
    | @check_choke_above_threshold => unfold check_choke_above_threshold
    | @handle_vote_event => unfold handle_vote_event | @vote_process => unfold vote_process
    | @publish_qc => unfold publish_qc | @count_now => unfold count_now
    | @generate_qc => unfold generate_qc | @handle_new_round => unfold handle_new_round
    | @make_proposal => unfold make_proposal | @is_proposer => unfold is_proposer
    | @set_update_from => unfold set_update_from
    | @handle_signed_proposal => unfold handle_signed_proposal
    | @verify_proposer => unfold verify_proposer | @verify_address => unfold verify_address
    | @check_block => unfold check_block | @filter_signed_proposal => unfold filter_signed_proposal
    | @props_insert => unfold props_insert
    | @save_wal_with_lock_round => unfold save_wal_with_lock_round | @save_wal => unfold save_wal
    | @trigger_smr => unfold trigger_smr | @sign_proposal => unfold sign_proposal
    | @sign_vote => unfold sign_vote | @aggregate_signatures => unfold aggregate_signatures
    | @handle_signed_vote => unfold handle_signed_vote
    | @handle_aggregated_vote => unfold handle_aggregated_vote
    | @handle_aggregated_choke => unfold handle_aggregated_choke
    | @handle_signed_choke => unfold handle_signed_choke
    | @handle_resp => unfold handle_resp | @handle_event => unfold handle_event
    | @handle_msg => unfold handle_msg | @on_raw => unfold on_raw | @on_event => unfold on_event
    | @on_resp => unfold on_resp | @on_start => unfold on_start
    | @wal_lost => unfold wal_lost
    end end.
Create HintDb keepsdb discriminated.
Ltac keeps_go HP := repeat first [solve [eauto 1 with keepsdb nocore] | keeps_step HP | unfold_handler].

(** Computations that do not change the state. *)
Section RO.
Context {T : Type} `{EqDecision T}.
Definition same (s : st T) (o : list (action T)) (s' : st T) : Prop := s' = s.
Lemma same_comp : comp same.
Proof. split; unfold same; congruence. Qed.
Lemma ro_generate e hash t : keeps same (generate_qc e hash t).
Proof. keeps_go same_comp. Qed.
Lemma ro_sign_vote e v : keeps same (sign_vote e v).
Proof. keeps_go same_comp. Qed.
Lemma ro_save e st l : keeps same (save_wal e st l).
Proof. keeps_go same_comp. all: done. Qed.
Lemma ro_save_lr e st l : keeps same (save_wal_with_lock_round e st l).
Proof. keeps_go same_comp. all: done. Qed.
Lemma ro_trigger e t : keeps same (trigger_smr e t).
Proof. keeps_go same_comp. all: done. Qed.
Lemma ro_count t : keeps same (count_now t).
Proof. keeps_go same_comp. Qed.
Lemma ro_agg e x y : keeps same (aggregate_signatures e x y).
Proof. keeps_go same_comp. Qed.
Lemma ro_sign_proposal (tenc : T -> bytes) e p : keeps same (sign_proposal tenc e p).
Proof. keeps_go same_comp. Qed.
Lemma ro_make e lr lp : keeps same (make_proposal e lr lp).
Proof. keeps_go same_comp. all: done. Qed.
Lemma ro_verify_proposer lc h r a : keeps same (verify_proposer lc h r a).
Proof. keeps_go same_comp. Qed.
Lemma ro_verify_address a : keeps same (verify_address a).
Proof. keeps_go same_comp. Qed.
Lemma ro_check hash b : keeps same (check_block hash b).
Proof. keeps_go same_comp. all: done. Qed.
End RO.

(** Exact results of the small helpers. *)
Section Small.
Context {T : Type} `{EqDecision T}.
Lemma sign_vote_inv (e : env T) v s s' o r :
  sign_vote e v s = (s', o, r) ->
  s' = s /\ o = [] /\
  match cr_sign (e_crypto e) (cr_hash (e_crypto e) (enc (vote_rlp v))) with
  | Some sig => r = Ok (mkSVote sig v (s_addr s))
  | None => r = Err ECrypto
  end.
Proof. unfold sign_vote, get, ret, fail. case_match; intros; simplify_eq; done. Qed.
Lemma sign_proposal_inv (tenc : T -> bytes) (e : env T) p s s' o r :
  sign_proposal tenc e p s = (s', o, r) ->
  s' = s /\ o = [] /\
  match cr_sign (e_crypto e) (cr_hash (e_crypto e) (enc (proposal_rlp tenc p))) with
  | Some sig => r = Ok (mkSProposal sig p)
  | None => r = Err ECrypto
  end.
Proof. unfold sign_proposal, get, ret, fail. case_match; intros; simplify_eq; done. Qed.
Lemma trigger_inv (e : env T) t s s' o r :
  trigger_smr e t s = (s', o, r) ->
  s' = s /\ ((o = [ATrigger t] /\ r = Ok tt) \/ (o = [] /\ r = Err ETriggerSMR)).
Proof. unfold trigger_smr, emit, fail. case_match; intros; simplify_eq; auto. Qed.
Lemma save_wal_inv (e : env T) st l s s' o r :
  save_wal e st l s = (s', o, r) ->
  let w := mkWalInfo (s_height s) (s_round s) st l (s_from s) in
  s' = s /\ o = [ASave w (e_save e w)] /\
  r = if e_save e w then Ok tt else Err (ESaveWal (s_height s) (s_round s)).
Proof.
  unfold save_wal, get, bind, emit, ret, fail. cbv zeta.
  destruct (e_save _ _); intros; simplify_eq; done.
Qed.
(** The lock that [save_wal_with_lock_round] records. *)
Definition lock_to_save (s : st T) (lr : option N) : option (option (wallock T)) :=
  match lr with
  | None => Some None
  | Some k =>
      match vc_get_qc_by_id (s_votes s) (s_height s) k Prevote with
      | Ok q => (fun b => Some (mkWalLock k q b)) <$> s_blocks s !! av_hash q
      | _ => None
      end
  end.
Lemma save_lr_inv (e : env T) st lr s s' o r :
  save_wal_with_lock_round e st lr s = (s', o, r) ->
  s' = s /\
  match lock_to_save s lr with
  | None => o = [] /\ r = Err EOther
  | Some l =>
      let w := mkWalInfo (s_height s) (s_round s) st l (s_from s) in
      o = [ASave w (e_save e w)] /\
      r = if e_save e w then Ok tt else Err (ESaveWal (s_height s) (s_round s))
  end.
Proof.
  unfold save_wal_with_lock_round, get, lock_to_save. destruct lr as [k|].
  - destruct (vc_get_qc_by_id _ _ _ _); cbn; [|intros; unfold fail in *; by simplify_eq..].
    destruct (s_blocks s !! _); cbn; [|intros; unfold fail in *; by simplify_eq..]. apply save_wal_inv.
  - apply save_wal_inv.
Qed.
End Small.

(** Uses the lemmas above on hypotheses [x s = (s', o, r)], replacing [s'] by [s]. *)
Ltac ro_subst :=
  repeat match goal with
  | H : ?x ?s = (?s', _, _) |- _ =>
      lazymatch x with
      | generate_qc _ _ _ => pose proof (ro_generate _ _ _ _ _ _ _ H)
      | sign_vote _ _ => pose proof (ro_sign_vote _ _ _ _ _ _ H)
      | save_wal _ _ _ => pose proof (ro_save _ _ _ _ _ _ _ H)
      | save_wal_with_lock_round _ _ _ => pose proof (ro_save_lr _ _ _ _ _ _ _ H)
      | trigger_smr _ _ => pose proof (ro_trigger _ _ _ _ _ _ H)
      | count_now _ => pose proof (ro_count _ _ _ _ _ H)
      | aggregate_signatures _ _ _ => pose proof (ro_agg _ _ _ _ _ _ _ H)
      | sign_proposal _ _ _ => pose proof (ro_sign_proposal _ _ _ _ _ _ _ H)
      | make_proposal _ _ _ => pose proof (ro_make _ _ _ _ _ _ _ H)
      | verify_proposer _ _ _ _ => pose proof (ro_verify_proposer _ _ _ _ _ _ _ _ H)
      | verify_address _ => pose proof (ro_verify_address _ _ _ _ _ H)
      | check_block _ _ => pose proof (ro_check _ _ _ _ _ _ H)
      end;
      lazymatch goal with Hs : same s ?oo s' |- _ => unfold same in Hs;
        first [is_var s'; subst s' | is_var s; subst s | clear Hs] end;
      revert H
  end; intros.
