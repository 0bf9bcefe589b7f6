(** * LockRules: the rules the votes of an instance follow because of its lock (for C28). *)
From Verif Require Export LockEv.
Set Default Proof Using "Type".

Section Lock.
Context (G : N -> N -> bytes -> Prop).
Notation lev_step := (lev_step G).
Notation lev_run := (lev_run G).

(** ** The rules the votes follow *)
(** Votes in the order in which they were cast. A precommit for a block comes with a prevote
    certificate for it of its own round, or of the round before if the node did not prevote in
    that round; and a prevote for something else in a later round comes with a certificate for
    something else of a round in between. *)
Definition precommit_for (v : vote) : Prop := v_type v = Precommit /\ v_hash v <> [].
Definition justified (vs : list vote) (v : vote) : Prop :=
  G (v_height v) (v_round v) (v_hash v) \/
  exists q, v_round v = q + 1 /\ G (v_height v) q (v_hash v) /\
    forall v', v' ∈ vs -> v_type v' = Prevote -> v_height v' = v_height v -> v_round v' <> v_round v.
Definition released (v : vote) (r : N) : Prop :=
  exists q x, G (v_height v) q x /\ x <> v_hash v /\ v_round v <= q /\ q < r.
Record rules (vs : list vote) : Prop := mkRules {
  ru_order : forall i j v v', vs !! i = Some v -> vs !! j = Some v' -> (i < j)%nat -> plt (vote_pos v) (vote_pos v');
  ru_justified : forall v, v ∈ vs -> precommit_for v -> justified vs v;
  ru_kept : forall v v', v ∈ vs -> v' ∈ vs -> precommit_for v -> v_type v' = Prevote ->
    v_height v' = v_height v -> v_round v < v_round v' -> v_hash v' = v_hash v \/ released v (v_round v') }.

(** The state of the lock fits the votes: the lock keeps what was precommitted, unless there is a
    certificate for something else. *)
Record safe (vs : list vote) (c : pos) (k : option lock) : Prop := mkSafe {
  sf_rules : rules vs;
  sf_pos : forall v, v ∈ vs -> ple (vote_pos v) c;
  sf_lock : forall l, k = Some l -> G (ph c) (l_round l) (l_hash l);
  sf_kept : forall v, v ∈ vs -> precommit_for v -> v_height v = ph c ->
    (exists l, k = Some l /\ l_hash l = v_hash v /\ v_round v <= l_round l + 1) \/
    (exists q x, G (v_height v) q x /\ x <> v_hash v /\ v_round v <= q /\ (q < pr c \/ q = pr c /\ 2 <= c.2)) }.
Ltac pos_lia := unfold ple, plt, wal_pos, vote_pos, ph, pr in *; simpl in *; lia.

Lemma rules_nil : rules [].
Proof. by split; intros; rewrite ?elem_of_nil in *. Qed.
Lemma rules_nodup vs v v' : rules vs -> v ∈ vs -> v' ∈ vs -> vote_pos v = vote_pos v' -> v = v'.
Proof.
  intros [Ho _ _] Hv Hv' E. apply elem_of_list_lookup in Hv as [i Hi], Hv' as [j Hj].
  destruct (lt_eq_lt_dec i j) as [[H| ->]|H]; [|congruence|].
  - pose proof (Ho _ _ _ _ Hi Hj H) as Hp. rewrite E in Hp. by apply plt_irrefl in Hp.
  - pose proof (Ho _ _ _ _ Hj Hi H) as Hp. rewrite E in Hp. by apply plt_irrefl in Hp.
Qed.
Lemma safe_nil c k : (forall l, k = Some l -> G (ph c) (l_round l) (l_hash l)) -> safe [] c k.
Proof. split; [apply rules_nil|..]; intros; rewrite ?elem_of_nil in *; try done. auto. Qed.
(** To a later height, or on within a round. *)
Lemma safe_higher vs h r s k :
  rules vs -> (forall v, v ∈ vs -> v_height v < h) -> (forall l, k = Some l -> G h (l_round l) (l_hash l)) -> safe vs (h, r, s) k.
Proof.
  intros Hr Hh Hk. split; [done| |done|].
  - intros v Hv. apply Hh in Hv. pos_lia.
  - intros v Hv _ E. apply Hh in Hv. unfold ph in E. simpl in E. lia.
Qed.
Lemma safe_more vs h r s s' k : safe vs (h, r, s) k -> s <= s' -> safe vs (h, r, s') k.
Proof.
  intros [A1 A2 A3 A4] Hs. split; [done| |done|].
  - intros v Hv. apply A2 in Hv. pos_lia.
  - intros v Hv Hp E. apply A4 in Hv as [?|(q & x & ? & ? & ? & ?)]; [by left| |done|done]. right. exists q, x.
    split_and!; try done. unfold pr in *. simpl in *. lia.
Qed.
Lemma safe_height vs c k v : safe vs c k -> v ∈ vs -> v_height v <= ph c.
Proof. intros [_ A2 _ _] Hv. apply A2 in Hv. destruct c as [[? ?] ?]. pos_lia. Qed.

(** Taking a certificate of the current round or a later one. *)
Lemma kept_cert vs h r s k q x r' s' :
  safe vs (h, r, s) k -> G h q x -> (r < q /\ q < r' \/ q = r /\ r' = r /\ s < 2 /\ 2 <= s') ->
  forall v, v ∈ vs -> precommit_for v -> v_height v = h ->
    (exists l, upd q x = Some l /\ l_hash l = v_hash v /\ v_round v <= l_round l + 1) \/
    (exists q x, G (v_height v) q x /\ x <> v_hash v /\ v_round v <= q /\ (q < r' \/ q = r' /\ 2 <= s')).
Proof.
  intros Hs Hg Hq v Hv Hp E. pose proof (sf_pos _ _ _ Hs v Hv) as Hpos.
  assert (v_round v <= q) as Hle by (destruct Hp as [Hp _]; unfold vote_pos in Hpos; rewrite Hp in Hpos; pos_lia).
  destruct (decide (x = v_hash v)) as [->|Hx].
  - left. unfold upd. destruct (v_hash v) eqn:Ev; [by destruct Hp|]. eexists. split; [done|]. simpl. split; [done|lia].
  - right. exists q, x. split_and!; [congruence|done|done|lia].
Qed.
Lemma upd_lock h q x l : G h q x -> upd q x = Some l -> G h (l_round l) (l_hash l).
Proof. unfold upd. destruct x; [done|]. by intros ? [= <-]. Qed.

Lemma safe_step vs c k ev c' k' : lev_step c k ev c' k' -> safe vs c k -> safe vs c' k'.
Proof.
  destruct c as [[h0 r0] s0]. intros [Hs Hl] Hsafe. pose proof Hsafe as [A1 A2 A3 A4].
  assert (forall v, v ∈ vs -> ple (vote_pos v) c') as Hpos.
  { intros v Hv. eapply ple_trans; [by apply A2|]. by eapply evs_step_le. }
  destruct ev as [h r lr lp fr iv cf|h r x lr|h r x lr|x|h r lr|]; simpl in Hs, Hl; unfold ph, pr in Hl; simpl in Hl; try done.
  - destruct Hs as [Hs ->]. destruct Hl as [_ [[Hlt ->]|[<- Hl]]].
    + apply safe_higher; [done| |done]. intros v Hv. apply (safe_height _ _ _ _ Hsafe) in Hv. unfold ph in Hv. simpl in Hv. lia.
    + destruct Hl as [->|(q & x & Hq & -> & Hg & ->)].
      * split; [done|done|done|]. unfold ph, pr. simpl. intros v Hv Hp E.
        apply A4 in Hv as [?|(q & x & ? & ? & ? & ?)]; [by left| |done|done]. right. exists q, x. unfold pr in *. simpl in *.
        split_and!; try done. lia.
      * split; [done|done| |]; unfold ph, pr; simpl.
        -- intros l Hlk. by eapply upd_lock.
        -- eapply (kept_cert _ _ _ _ _ q x (q + 1) 0 Hsafe); [done|lia].
  - destruct Hs as (-> & -> & Hs & ->). destruct Hl as (_ & [[-> _]|(-> & l & q & y & -> & Hg & Hy & Hlq & Hq)]); [eapply safe_more; [done|lia]|].
    split; [done|done|done|]. unfold ph, pr. simpl. intros v Hv Hp E. right.
    apply A4 in Hv as [(l' & [= <-] & El & Er)|(q' & x' & ? & ? & ? & ?)]; [| |done|done].
    + exists q, y. split_and!; [congruence|congruence|lia|lia].
    + exists q', x'. unfold pr in *. simpl in *. split_and!; [done..|lia].
  - destruct Hs as (-> & -> & Hs & ->). destruct Hl as (_ & [[_ ->]|[[Hg ->]|(_ & -> & _)]]).
    + eapply safe_more; [done|lia].
    + split; [done|done| |]; unfold ph, pr; simpl.
      * intros l Hlk. by eapply upd_lock.
      * eapply (kept_cert _ _ _ _ _ r0 x r0 2 Hsafe); [done|lia].
    + eapply safe_more; [done|lia].
  - destruct Hl as [-> _]. by subst.
  - destruct Hl as (_ & _ & _ & ->). first [by subst|by destruct Hs as (_ & _ & ->)].
Qed.

Lemma lookup_snoc_cases {A} (l : list A) a i x :
  (l ++ [a]) !! i = Some x -> (l !! i = Some x /\ (i < length l)%nat) \/ (i = length l /\ x = a).
Proof.
  intros [H|[Hi H]]%lookup_app_Some; [left; split; [done|by eapply lookup_lt_Some]|right].
  destruct (i - length l)%nat as [|n] eqn:E; [|done]. simpl in H. split; [lia|congruence].
Qed.
Lemma safe_vote vs c k ev c' k' h r t x :
  lev_step c k ev c' k' -> vote_event ev = Some (h, r, t, x) -> safe vs c k -> safe (vs ++ [mkVote h r t x]) c' k'.
Proof.
  intros Hstep Hev Hsafe. pose proof (safe_step _ _ _ _ _ _ Hstep Hsafe) as Hafter.
  destruct c as [[h0 r0] s0]. destruct Hstep as [Hs Hl]. pose proof Hsafe as [A1 A2 A3 A4].
  assert (c' = vote_pos (mkVote h r t x) /\ h = h0 /\ r = r0 /\ s0 < match t with Prevote => 1 | Precommit => 2 end) as (-> & -> & -> & Hs0).
  { destruct ev; try discriminate Hev; simpl in Hev, Hs; injection Hev as <- <- <- <-; destruct Hs as (-> & -> & ? & ->); done. }
  assert (forall v, v ∈ vs -> plt (vote_pos v) (vote_pos (mkVote h0 r0 t x))) as Hlt.
  { intros v Hv. eapply ple_plt_trans; [by apply A2|]. destruct t; pos_lia. }
  assert (forall v, v ∈ vs -> v_type v = Precommit -> v_height v = h0 -> v_round v < r0 \/ (v_round v = r0 /\ t = Prevote /\ False)) as Hpc.
  { intros v Hv Ht Eh. pose proof (A2 v Hv) as Hp. unfold vote_pos in Hp. rewrite Ht in Hp. left. destruct t; pos_lia. }
  destruct Hafter as [B1 B2 B3 B4].
  (* what a new precommit comes with *)
  assert (t = Precommit -> x <> [] ->
    (G h0 r0 x \/ exists q, r0 = q + 1 /\ G h0 q x /\ s0 = 0) /\
    exists l, k' = Some l /\ l_hash l = x /\ r0 <= l_round l + 1) as Hnew.
  { intros -> Hx. destruct ev; try discriminate Hev; simpl in Hev, Hl; injection Hev as -> -> ->.
    destruct Hl as (_ & [[-> _]|[[Hg ->]|(E0 & -> & l & -> & <- & ->)]]); [done| |].
    - split; [by left|]. unfold upd. destruct x; [done|]. eexists. split; [done|]. simpl. split; [done|lia].
    - split; [right; exists (l_round l); split_and!; try done; by apply A3|]. exists l. split_and!; [done..|lia]. }
  split.
  - destruct A1 as [R1 R2 R3]. split.
    + intros i j v v' Hi Hj Hij. apply lookup_snoc_cases in Hi as [[Hi Hi']|[-> ->]], Hj as [[Hj Hj']|[-> ->]]; [by eapply R1| |lia..].
      apply Hlt. by eapply elem_of_list_lookup_2.
    + intros v [Hv|Hv%elem_of_list_singleton]%elem_of_app Hp.
      * destruct (R2 v Hv Hp) as [?|(q & E & Hg & Hn)]; [by left|]. right. exists q. split_and!; try done.
        intros v' [Hv'|Hv'%elem_of_list_singleton]%elem_of_app Ht Eh; [by apply Hn|]. subst v'. simpl in *.
        subst t. destruct (Hpc v Hv (proj1 Hp)) as [?|(_ & _ & [])]; [done|lia].
      * subst v. destruct Hp as [Ht Hx]. simpl in Ht, Hx. destruct (Hnew Ht Hx) as [[Hg|(q & E & Hg & E0)] _]; [by left|]. right.
        exists q. simpl. split_and!; [done..|]. intros v' [Hv'|Hv'%elem_of_list_singleton]%elem_of_app Ht' Eh Er.
        -- apply A2 in Hv'. unfold vote_pos in Hv'. rewrite Ht' in Hv'. pos_lia.
        -- subst v'. simpl in Ht'. congruence.
    + intros v v' [Hv|Hv%elem_of_list_singleton]%elem_of_app [Hv'|Hv'%elem_of_list_singleton]%elem_of_app Hp Ht Eh Er.
      * by apply R3.
      * subst v'. simpl in *. subst t.
        destruct ev; try discriminate Hev; simpl in Hev, Hl; injection Hev as -> -> ->.
        destruct Hl as (_ & [[-> Hlx]|(_ & l0 & q0 & y0 & -> & Hg0 & Hy0 & Hlq0 & Hq0)]).
        2: { right. destruct (A4 v Hv Hp) as [(l & [= <-] & El & Er')|(q & y & ? & ? & ? & Hq)]; [done| |].
             - exists q0, y0. split_and!; [congruence|congruence|lia|lia].
             - exists q, y. unfold pr in Hq. simpl in Hq. split_and!; try done. lia. }
        destruct (A4 v Hv Hp) as [(l & -> & <- & _)|(q & y & ? & ? & ? & Hq)]; [done|left; by apply Hlx|].
        right. exists q, y. split_and!; try done. unfold pr in Hq. simpl in Hq. lia.
      * subst v. destruct Hp as [Hp _]. simpl in *. subst t. exfalso.
        pose proof (Hlt v' Hv') as Hc. unfold vote_pos in Hc. rewrite Ht in Hc. simpl in Hc. pos_lia.
      * subst v v'. simpl in *. lia.
  - intros v [Hv|Hv%elem_of_list_singleton]%elem_of_app; [by apply B2|]. subst v. apply ple_refl.
  - done.
  - intros v [Hv|Hv%elem_of_list_singleton]%elem_of_app Hp E; [by apply B4|]. subst v. destruct Hp as [Ht Hx]. simpl in Ht, Hx.
    left. destruct (Hnew Ht Hx) as [_ (l & ? & ? & ?)]. by exists l.
Qed.
End Lock.
