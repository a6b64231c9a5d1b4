(** Property C43: the step limit. *)
From Coq Require Import Reals ZArith List Bool Lia Arith.
From Verif Require Import Base.Prelude Base.Rounding Base.Random Model.Constants Model.MicroscopeUtils
  Model.Graphene Model.Simulator Model.ActionAdapters Model.Goals Model.FeatureConstructors Model.Environment
  Spec.Episodes Proofs.EnvironmentFacts Proofs.EpisodeFacts.
Import ListNotations.
Open Scope Z_scope.

Section Facts.
Context {F : Type}.
Notation history := (list (env_call * time_step F)).

Lemma steps_into_snoc (h : history) c ts : steps_into (h ++ [(c, ts)]) =
  match ts_type ts with FIRST => 0%nat | _ => S (steps_into h) end.
Proof. unfold steps_into. rewrite fold_left_app. reflexivity. Qed.

Lemma reached_snoc limit (h : history) c ts : reached limit (h ++ [(c, ts)]) <->
  exists n, limit = Some n /\ ts_type ts <> FIRST /\ n <= Z.of_nat (S (steps_into h)).
Proof.
  unfold reached. split.
  - intros (n & h0 & c0 & t0 & -> & E & T & L). apply app_inj_tail in E as [-> E]. injection E as -> ->.
    exists n. rewrite steps_into_snoc in L. destruct (ts_type t0); [congruence|auto|auto].
  - intros (n & -> & T & L). exists n, h, c, ts. rewrite steps_into_snoc. destruct (ts_type ts); [congruence|auto|auto].
Qed.
Lemma reached_nil limit : ~ reached limit (@nil (env_call * time_step F)).
Proof. intros (n & h0 & c & ts & _ & E & _). destruct h0; discriminate. Qed.
Lemma reached_dec limit (h : history) : reached limit h \/ ~ reached limit h.
Proof.
  destruct h as [|[c ts] h _] using rev_ind; [right; apply reached_nil|]. rewrite reached_snoc. destruct limit as [n|].
  - destruct (Z_le_gt_dec n (Z.of_nat (S (steps_into h)))) as [L|L].
    + destruct (ts_type ts); [right; intros (m & _ & K & _); congruence|left|left]; exists n; repeat split; auto; discriminate.
    + right. intros (m & K & _ & L'). injection K as <-. lia.
  - right. intros (m & K & _). discriminate.
Qed.

(** what the wrapper's result, the (i+1)-th, has to do with that of the wrapped
    environment *)
Definition relays (limit : option Z) (h hi : history) : Prop :=
  length h = length hi /\
  forall i c ts ci tsi, nth_error h i = Some (c, ts) -> nth_error hi i = Some (ci, tsi) ->
    same_payload ts tsi /\
    (ts_type ts = FIRST <-> ts_type tsi = FIRST) /\
    (ts_type ts = LAST <-> ts_type tsi = LAST \/ reached limit (firstn (S i) h)) /\
    (reached limit (firstn i h) -> ci = CallReset) /\ (~ reached limit (firstn i h) -> ci = c).

Lemma relays_nil limit : relays limit [] [].
Proof. split; auto. intros i c ts ci tsi E. destruct i; discriminate. Qed.
Lemma relays_snoc limit h hi c ts ci tsi : relays limit h hi -> same_payload ts tsi ->
  (ts_type ts = FIRST <-> ts_type tsi = FIRST) ->
  (ts_type ts = LAST <-> ts_type tsi = LAST \/ reached limit (h ++ [(c, ts)])) ->
  (reached limit h -> ci = CallReset) -> (~ reached limit h -> ci = c) ->
  relays limit (h ++ [(c, ts)]) (hi ++ [(ci, tsi)]).
Proof.
  intros (L & R) P T1 T2 C1 C2. split; [rewrite !app_length; simpl; lia|].
  intros i c0 ts0 ci0 tsi0 E E'. destruct (Nat.lt_ge_cases i (length h)) as [Li|Li].
  - rewrite nth_error_app1 in E by lia. rewrite nth_error_app1 in E' by lia.
    rewrite !firstn_app. replace (S i - length h)%nat with 0%nat by lia. replace (i - length h)%nat with 0%nat by lia.
    cbn [firstn]. rewrite !app_nil_r. eapply R; eauto.
  - assert (Bi : (i < length (h ++ [(c, ts)]))%nat) by (apply nth_error_Some; congruence).
    rewrite app_length in Bi; simpl in Bi. assert (i = length h) by lia. subst i.
    rewrite nth_error_app2, Nat.sub_diag in E by lia. rewrite nth_error_app2, L, Nat.sub_diag in E' by lia.
    injection E as <- <-. injection E' as <- <-.
    replace (firstn (S (length h)) (h ++ [(c, ts)])) with (h ++ [(c, ts)])
      by (rewrite firstn_all2; auto; rewrite app_length; simpl; lia).
    replace (firstn (length h) (h ++ [(c, ts)])) with h; auto.
    rewrite firstn_app, Nat.sub_diag, firstn_all. cbn [firstn]. rewrite app_nil_r. reflexivity.
Qed.
End Facts.

(** dm_env: a reset returns a FIRST time step *)
Definition resets_first {E F} (inner : environment E F) : Prop :=
  forall e ts e', e_reset inner e = (Ok ts, e') -> ts_type ts = FIRST.

Lemma session_relayed {E F} (inner : environment E F) limit e h w : resets_first inner ->
  session (limited_environment inner) (new_limited e limit) h w ->
  sl_limit w = limit /\ (reached limit h -> sl_elapsed w = -1) /\
  (~ reached limit h -> sl_elapsed w = Z.of_nat (steps_into h)) /\
  exists hi, session inner e hi (sl_env w) /\ relays limit h hi.
Proof.
  intros Rf Hs. induction Hs as [|h w1 c ts w2 Hs (Il & I1 & I2 & hi & Hi & Rl) Ea].
  { split; auto. split; [intros K; destruct (reached_nil _ K)|]. split; auto. exists []. split; [constructor|apply relays_nil]. }
  assert (Ne : sl_elapsed w1 = -1 <-> reached limit h).
  { split; auto. intros K. destruct (reached_dec limit h) as [|N]; auto. rewrite (I2 N) in K. lia. }
  destruct c as [|a]; cbn [answer limited_environment e_reset e_step] in Ea.
  - unfold sl_reset in Ea. destruct (e_reset inner (sl_env w1)) as [r e2] eqn:Er. injection Ea as -> <-.
    cbn [sl_limit sl_elapsed sl_env]. pose proof (Rf _ _ _ Er) as T.
    assert (Nr : ~ reached limit (h ++ [(CallReset, ts)])) by (rewrite reached_snoc; intros (n & _ & K & _); congruence).
    split; auto. split; [tauto|]. split; [rewrite steps_into_snoc, T; auto|].
    exists (hi ++ [(CallReset, ts)]). split; [econstructor; eauto|].
    apply relays_snoc; auto; [split; auto|tauto|tauto].
  - unfold sl_step in Ea.
    destruct (if sl_elapsed w1 =? -1 then e_reset inner (sl_env w1) else e_step inner a (sl_env w1)) as [r e2] eqn:Er.
    set (ci := if sl_elapsed w1 =? -1 then CallReset else CallStep a).
    assert (Ci : answer inner ci (sl_env w1) = (r, e2)).
    { unfold ci. destruct (sl_elapsed w1 =? -1); exact Er. }
    assert (C1 : reached limit h -> ci = CallReset).
    { intros K. apply Ne in K. unfold ci. rewrite K. reflexivity. }
    assert (C2 : ~ reached limit h -> ci = CallStep a).
    { intros K. unfold ci. destruct (sl_elapsed w1 =? -1) eqn:Ez; auto. apply Z.eqb_eq in Ez. tauto. }
    clearbody ci. destruct r as [tsi|x|]; try discriminate.
    assert (Hi' : session inner e (hi ++ [(ci, tsi)]) e2) by (econstructor; eauto).
    assert (Notfirst : ts_type tsi <> FIRST -> ~ reached limit h).
    { intros T K. apply C1 in K. subst ci. cbn [answer] in Ci. apply Rf in Ci. congruence. }
    assert (Gen : ts_type tsi <> FIRST ->
       match sl_limit w1 with
       | Some n => if n <=? sl_elapsed w1 + 1
           then (Ok (truncation (ts_reward tsi) (ts_observation tsi) (ts_discount tsi)), mklimited (sl_limit w1) (-1) e2)
           else (Ok tsi, mklimited (sl_limit w1) (sl_elapsed w1 + 1) e2)
       | None => (Ok tsi, mklimited (sl_limit w1) (sl_elapsed w1 + 1) e2)
       end = (Ok ts, w2) ->
       sl_limit w2 = limit /\ (reached limit (h ++ [(CallStep a, ts)]) -> sl_elapsed w2 = -1) /\
       (~ reached limit (h ++ [(CallStep a, ts)]) -> sl_elapsed w2 = Z.of_nat (steps_into (h ++ [(CallStep a, ts)]))) /\
       exists hi0, session inner e hi0 (sl_env w2) /\ relays limit (h ++ [(CallStep a, ts)]) hi0).
    { intros T K. pose proof (Notfirst T) as Nr. specialize (I2 Nr). rewrite Il in K.
      destruct limit as [n|].
      - destruct (n <=? sl_elapsed w1 + 1) eqn:En.
        + injection K as <- <-. cbn [sl_limit sl_elapsed sl_env].
          assert (Rd : reached (Some n) (h ++ [(CallStep a, truncation (ts_reward tsi) (ts_observation tsi) (ts_discount tsi))])).
          { rewrite reached_snoc. exists n. split; auto. split; [discriminate|]. apply Z.leb_le in En. lia. }
          split; auto. split; auto. split; [tauto|]. exists (hi ++ [(ci, tsi)]). split; auto.
          apply relays_snoc; auto; [split; auto|cbn; split; [discriminate|tauto]|cbn; tauto].
        + injection K as <- <-. cbn [sl_limit sl_elapsed sl_env].
          assert (Rd : ~ reached (Some n) (h ++ [(CallStep a, tsi)])).
          { rewrite reached_snoc. intros (m & K & _ & L). injection K as <-. apply Z.leb_gt in En. lia. }
          split; auto. split; [tauto|]. split.
          { intros _. rewrite steps_into_snoc. destruct (ts_type tsi); [congruence|lia|lia]. }
          exists (hi ++ [(ci, tsi)]). split; auto. apply relays_snoc; auto; [split; auto|tauto|tauto].
      - injection K as <- <-. cbn [sl_limit sl_elapsed sl_env].
        assert (Rd : ~ reached None (h ++ [(CallStep a, tsi)])).
        { rewrite reached_snoc. intros (m & K & _). discriminate. }
        split; auto. split; [tauto|]. split.
        { intros _. rewrite steps_into_snoc. destruct (ts_type tsi); [congruence|lia|lia]. }
        exists (hi ++ [(ci, tsi)]). split; auto. apply relays_snoc; auto; [split; auto|tauto|tauto]. }
    destruct (ts_type tsi) eqn:T; [|apply Gen; [discriminate|exact Ea]|apply Gen; [discriminate|exact Ea]].
    injection Ea as <- <-. cbn [sl_limit sl_elapsed sl_env].
    assert (Nr : ~ reached limit (h ++ [(CallStep a, tsi)])) by (rewrite reached_snoc; intros (n & _ & K & _); congruence).
    split; auto. split; [tauto|]. split; [rewrite steps_into_snoc, T; auto|].
    exists (hi ++ [(ci, tsi)]). split; auto. apply relays_snoc; auto; [split; auto|tauto|tauto].
Qed.

(** the wrapper makes the same calls on the wrapped environment, except that it
    resets it when a step follows a result that reached the limit, and relays
    the results, turning those that reach the limit into LAST ones *)
Theorem step_limit_relays : forall {E F} (inner : environment E F) limit e h w, resets_first inner ->
  session (limited_environment inner) (new_limited e limit) h w ->
  exists hi, session inner e hi (sl_env w) /\ length h = length hi /\
  forall i c ts ci tsi, nth_error h i = Some (c, ts) -> nth_error hi i = Some (ci, tsi) ->
    same_payload ts tsi /\
    (ts_type ts = FIRST <-> ts_type tsi = FIRST) /\
    (ts_type ts = LAST <-> ts_type tsi = LAST \/ reached limit (firstn (S i) h)) /\
    (reached limit (firstn i h) -> ci = CallReset) /\ (~ reached limit (firstn i h) -> ci = c).
Proof.
  intros E F inner limit e h w Rf Hs. destruct (session_relayed _ _ _ _ _ Rf Hs) as (_ & _ & _ & hi & Hi & L & R). eauto.
Qed.
Print Assumptions step_limit_relays.

Lemma session_prefix {E F} (en : environment E F) e h1 h2 w : session en e (h1 ++ h2) w -> exists w1, session en e h1 w1.
Proof.
  revert w. induction h2 as [|x h2 IH] using rev_ind; intros w Hs; [rewrite app_nil_r in Hs; eauto|].
  rewrite app_assoc in Hs. inversion Hs as [K|h w1 c ts w2 Hs1 Ea K].
  - destruct (h1 ++ h2); discriminate.
  - apply app_inj_tail in K as [-> _]. eauto.
Qed.

Lemma steps_bound {E F} (inner : environment E F) n e h w : resets_first inner -> 1 <= n ->
  session (limited_environment inner) (new_limited e (Some n)) h w -> Z.of_nat (steps_into h) <= n.
Proof.
  intros Rf Hn Hs. induction Hs as [|h w1 c ts w2 Hs IH Ea]; [cbn; lia|].
  rewrite steps_into_snoc.
  assert (Hs2 : session (limited_environment inner) (new_limited e (Some n)) (h ++ [(c, ts)]) w2) by (econstructor; eauto).
  destruct (session_relayed _ _ _ _ _ Rf Hs2) as (_ & _ & _ & hi & Hi & L & R).
  destruct (ts_type ts) eqn:T; [lia| |].
  all: destruct (reached_dec (Some n) h) as [Rh|Rh].
  all: try (assert (~ n <= Z.of_nat (steps_into h)) by (intros K; apply Rh; destruct h as [|[c0 t0] h0 _] using rev_ind;
       [cbn in K; lia|rewrite reached_snoc; exists n; rewrite steps_into_snoc in K; destruct (ts_type t0); [cbn in K; lia| |]; repeat split; auto; discriminate]); lia).
  all: exfalso; destruct hi as [|[ci tsi] hi _] using rev_ind; [rewrite app_length in L; simpl in L; lia|].
  all: rewrite !app_length in L; simpl in L.
  all: destruct (R (length h) c ts ci tsi) as (_ & A & _ & B & _);
    [rewrite nth_error_app2, Nat.sub_diag; auto|rewrite nth_error_app2; [replace (length h - length hi)%nat with 0%nat by lia; auto|lia]|].
  all: rewrite firstn_app, Nat.sub_diag, firstn_all in B; cbn [firstn] in B; rewrite app_nil_r in B; specialize (B Rh); subst ci.
  all: inversion Hi as [K|h' e1 c' t' e2 Hi1 Ei K]; [destruct hi; discriminate|]; apply app_inj_tail in K as [-> K]; injection K as -> ->;
    cbn [answer] in Ei; apply Rf in Ei; apply A in Ei; congruence.
Qed.

(** with limit n >= 1 every episode, or part of an episode, has at most n steps
    and the n-th is LAST; the step after it starts an episode *)
Theorem step_limit_bounds : forall {E F} (inner : environment E F) n e h w before l after, resets_first inner -> 1 <= n ->
  session (limited_environment inner) (new_limited e (Some n)) h w ->
  h = before ++ l ++ after -> Forall (fun x => ts_type (snd x) <> FIRST) l ->
  Z.of_nat (length l) <= n /\
  (Z.of_nat (length l) = n -> exists l0 c ts, l = l0 ++ [(c, ts)] /\ ts_type ts = LAST /\
     forall c' ts' rest, after = (c', ts') :: rest -> ts_type ts' = FIRST).
Proof.
  intros E F inner n e h w before l after Rf Hn Hs Eh Fa.
  assert (St : steps_into (before ++ l) = (steps_into before + length l)%nat).
  { clear - Fa. revert Fa. induction l as [|[c ts] l IH] using rev_ind; intros Fa; [rewrite app_nil_r; simpl; lia|].
    rewrite app_assoc, steps_into_snoc. apply Forall_app in Fa as [F1 F2]. inversion F2 as [|? ? T _]; subst. cbn in T.
    rewrite app_length; simpl. rewrite IH by auto. destruct (ts_type ts); [congruence|lia|lia]. }
  assert (Hp : exists w1, session (limited_environment inner) (new_limited e (Some n)) (before ++ l) w1).
  { rewrite Eh, app_assoc in Hs. eapply session_prefix; eauto. }
  destruct Hp as (w1 & Hp). pose proof (steps_bound inner n e _ _ Rf Hn Hp) as B. split; [lia|]. intros El.
  destruct l as [|[c ts] l _] using rev_ind; [simpl in El; lia|]. exists l, c, ts. split; auto.
  apply Forall_app in Fa as [F1 F2]. apply Forall_inv in F2 as T. cbn in T. subst h.
  assert (Rd : reached (Some n) (before ++ l ++ [(c, ts)])).
  { rewrite app_assoc, reached_snoc. exists n. rewrite app_assoc, steps_into_snoc in St. repeat split; auto.
    destruct (ts_type ts); [congruence|lia|lia]. }
  destruct (session_relayed _ _ _ _ _ Rf Hs) as (_ & _ & _ & hi & Hi & L & R).
  assert (Nh : forall k x, nth_error (l ++ [(c, ts)]) k = Some x ->
     nth_error (before ++ (l ++ [(c, ts)]) ++ after) (length before + k) = Some x).
  { intros k x K. rewrite nth_error_app2, Nat.add_comm, Nat.add_sub by lia. rewrite nth_error_app1; auto. apply nth_error_Some; congruence. }
  assert (Ex : forall i x, nth_error (before ++ (l ++ [(c, ts)]) ++ after) i = Some x -> exists y, nth_error hi i = Some y).
  { intros i x K. destruct (nth_error hi i) eqn:K2; eauto. apply nth_error_None in K2. rewrite <- L in K2.
    apply nth_error_None in K2. congruence. }
  assert (Fn : firstn (length before + S (length l)) (before ++ (l ++ [(c, ts)]) ++ after) = before ++ l ++ [(c, ts)]).
  { rewrite !app_assoc. rewrite firstn_app.
    replace (length before + S (length l) - length ((before ++ l) ++ [(c, ts)]))%nat with 0%nat by (rewrite !app_length; simpl; lia).
    cbn [firstn]. rewrite app_nil_r. apply firstn_all2. rewrite !app_length; simpl; lia. }
  assert (Last : ts_type ts = LAST).
  { assert (K : nth_error (l ++ [(c, ts)]) (length l) = Some (c, ts)) by (rewrite nth_error_app2, Nat.sub_diag; auto).
    apply Nh in K. destruct (Ex _ _ K) as ([ci tsi] & K2). destruct (R _ _ _ _ _ K K2) as (_ & _ & A & _).
    apply A. right. replace (S (length before + length l)) with (length before + S (length l))%nat by lia. rewrite Fn. exact Rd. }
  split; auto. intros c' ts' rest ->.
  assert (K : nth_error (before ++ (l ++ [(c, ts)]) ++ (c', ts') :: rest) (length before + S (length l)) = Some (c', ts')).
  { rewrite !app_assoc. rewrite nth_error_app2 by (rewrite !app_length; simpl; lia).
    replace (length before + S (length l) - length ((before ++ l) ++ [(c, ts)]))%nat with 0%nat by (rewrite !app_length; simpl; lia). reflexivity. }
  destruct (Ex _ _ K) as ([ci tsi] & K2). destruct (R _ _ _ _ _ K K2) as (_ & A & _ & B2 & _).
  rewrite Fn in B2. specialize (B2 Rd). subst ci.
  destruct (session_entry inner _ _ _ _ _ _ Hi K2) as (e1 & e2 & h1 & _ & Ea). cbn in Ea. apply Rf in Ea. tauto.
Qed.
Print Assumptions step_limit_bounds.

(** if the wrapped environment follows the protocol, so does the wrapper *)
Theorem step_limit_protocol : forall {E F} (inner : environment E F) limit e waiting h w, resets_first inner ->
  (forall hi e', session inner e hi e' -> protocol waiting hi) ->
  session (limited_environment inner) (new_limited e limit) h w -> protocol waiting h.
Proof.
  intros E F inner limit e waiting h w Rf Pi Hs. destruct (session_relayed _ _ _ _ _ Rf Hs) as (_ & _ & _ & hi & Hi & L & R).
  specialize (Pi _ _ Hi). intros i c ts N.
  assert (Ex : forall i x, nth_error h i = Some x -> exists y, nth_error hi i = Some y).
  { intros j x K. destruct (nth_error hi j) eqn:K2; eauto. apply nth_error_None in K2. rewrite <- L in K2.
    apply nth_error_None in K2. congruence. }
  assert (Ex' : forall i x, nth_error hi i = Some x -> exists y, nth_error h i = Some y).
  { intros j x K. destruct (nth_error h j) eqn:K2; eauto. apply nth_error_None in K2. rewrite L in K2.
    apply nth_error_None in K2. congruence. }
  destruct (Ex _ _ N) as ([ci tsi] & Ni). destruct (R _ _ _ _ _ N Ni) as (_ & A & _ & B1 & B2). rewrite A, (Pi _ _ _ Ni).
  destruct (reached_dec limit (firstn i h)) as [Rd|Rd].
  - split; [|intros _; left; auto]. intros _. right; right.
    destruct i as [|j]; [destruct (reached_nil _ Rd)|]. destruct (nth_error h j) as [[c' ts']|] eqn:Nj.
    + exists j, c', ts'. split; auto. split; auto. destruct (Ex _ _ Nj) as ([cj tsj] & Nij).
      destruct (R _ _ _ _ _ Nj Nij) as (_ & _ & A2 & _). apply A2. auto.
    + apply nth_error_None in Nj. assert (nth_error h (S j) <> None) by congruence. apply nth_error_Some in H. lia.
  - rewrite (B2 Rd). split.
    + intros [K|[K|(j & c' & t' & -> & Nj & T)]]; auto. right; right. destruct (Ex' _ _ Nj) as ([cj tsj] & Nij).
      exists j, cj, tsj. split; auto. split; auto. destruct (R _ _ _ _ _ Nij Nj) as (_ & _ & A2 & _). apply A2. auto.
    + intros [K|[K|(j & c' & t' & -> & Nj & T)]]; auto. right; right. destruct (Ex _ _ Nj) as ([cj tsj] & Nij).
      exists j, cj, tsj. split; auto. split; auto. destruct (R _ _ _ _ _ Nj Nij) as (_ & _ & A2 & _). apply A2 in T. destruct T; auto. contradiction.
Qed.
Print Assumptions step_limit_protocol.

(** without a limit the wrapper is transparent *)
Theorem no_limit_transparent : forall {E F} (inner : environment E F) e h e', resets_first inner ->
  session inner e h e' <-> exists w, session (limited_environment inner) (new_limited e None) h w /\ sl_env w = e'.
Proof.
  intros E F inner e h e' Rf. split.
  - induction 1 as [|h e1 c ts e2 Hs (w & Hw & Ew) Ea]; [exists (new_limited e None); split; [constructor|auto]|].
    destruct (session_relayed _ _ _ _ _ Rf Hw) as (Il & _ & I2 & _).
    assert (Nr : ~ reached None h) by (intros (n & _ & _ & _ & K & _); discriminate). specialize (I2 Nr).
    destruct c as [|a].
    + exists (mklimited None 0 e2). split; auto. econstructor; eauto. cbn [answer limited_environment e_reset] in *. unfold sl_reset.
      rewrite Ew, Ea, Il. reflexivity.
    + exists (mklimited None (match ts_type ts with FIRST => 0 | _ => sl_elapsed w + 1 end) e2). split; auto. econstructor; eauto.
      cbn [answer limited_environment e_step] in *. unfold sl_step.
      replace (sl_elapsed w =? -1) with false by (symmetry; apply Z.eqb_neq; lia).
      rewrite Ew, Ea, Il. destruct (ts_type ts); reflexivity.
  - intros (w & Hw & <-). destruct (session_relayed _ _ _ _ _ Rf Hw) as (_ & _ & _ & hi & Hi & L & R).
    assert (h = hi); [|subst; auto]. clear - L R.
    assert (K : forall i, nth_error h i = nth_error hi i).
    { intros i. destruct (nth_error h i) as [[c ts]|] eqn:N.
      - destruct (nth_error hi i) as [[ci tsi]|] eqn:Ni.
        + destruct (R _ _ _ _ _ N Ni) as ((P1 & P2 & P3) & A & B & _ & D).
          assert (Nr : forall x, ~ reached None (x : list (env_call * time_step F))) by (intros x (n & _ & _ & _ & K & _); discriminate).
          rewrite (D (Nr _)). destruct ts as [ty r0 d o], tsi as [ty' r' d' o']. cbn in *. subst. do 3 f_equal.
          specialize (Nr (firstn (S i) h)). destruct ty, ty'; auto; exfalso; intuition congruence.
        + apply nth_error_None in Ni. rewrite <- L in Ni. apply nth_error_None in Ni. congruence.
      - apply nth_error_None in N. rewrite L in N. symmetry. apply nth_error_None. auto. }
    clear R. revert hi L K. induction h as [|x h IH]; intros [|y hi] L K; auto; try discriminate.
    pose proof (K 0%nat) as K0. injection K0 as ->. f_equal. apply IH; [simpl in L; lia|]. intros i. apply (K (S i)).
Qed.
Print Assumptions no_limit_transparent.

(** the wrapper raises exactly when the wrapped environment does, and then
    neither counts the step nor forgets that the limit was reached *)
Theorem step_limit_errors : forall {E F} (inner : environment E F) limit e h w x a, resets_first inner ->
  session (limited_environment inner) (new_limited e limit) h w ->
  (forall w', e_reset (limited_environment inner) w = (Raise x, w') <->
     exists e', e_reset inner (sl_env w) = (Raise x, e') /\ w' = mklimited limit 0 e') /\
  (forall w', e_step (limited_environment inner) a w = (Raise x, w') <->
     exists e', w' = mklimited limit (sl_elapsed w) e' /\
       ((reached limit h /\ e_reset inner (sl_env w) = (Raise x, e')) \/
        (~ reached limit h /\ e_step inner a (sl_env w) = (Raise x, e')))).
Proof.
  intros E F inner limit e h w x a Rf Hs. destruct (session_relayed _ _ _ _ _ Rf Hs) as (Il & I1 & I2 & _).
  split; intros w'; cbn [limited_environment e_reset e_step].
  - unfold sl_reset. destruct (e_reset inner (sl_env w)) as [r e'] eqn:Er. rewrite Il. split.
    + intros K. injection K as -> <-. eauto.
    + intros (e2 & K & ->). injection K as -> ->. reflexivity.
  - unfold sl_step. destruct (reached_dec limit h) as [Rd|Rd].
    + rewrite (I1 Rd). cbn [Z.eqb Pos.eqb]. destruct (e_reset inner (sl_env w)) as [r e'] eqn:Er. rewrite Il. split.
      * destruct r as [ts|y|]; try discriminate.
        -- destruct (ts_type ts); try discriminate; destruct limit as [n|]; try discriminate; destruct (n <=? _); discriminate.
        -- intros K. injection K as -> <-. exists e'. auto.
      * intros (e2 & -> & [(_ & K)|(K & _)]); [|tauto]. injection K as -> ->. reflexivity.
    + replace (sl_elapsed w =? -1) with false by (symmetry; apply Z.eqb_neq; rewrite (I2 Rd); lia).
      destruct (e_step inner a (sl_env w)) as [r e'] eqn:Er. rewrite Il. split.
      * destruct r as [ts|y|]; try discriminate.
        -- destruct (ts_type ts); try discriminate; destruct limit as [n|]; try discriminate; destruct (n <=? _); discriminate.
        -- intros K. injection K as -> <-. exists e'. auto.
      * intros (e2 & -> & [(K & _)|(_ & K)]); [tauto|]. injection K as -> ->. reflexivity.
Qed.
Print Assumptions step_limit_errors.

(** the environment can be wrapped *)
Theorem dune_resets_first : forall {G St Goal F} (s : sampler G) render (adapter : action_adapter G St)
  (features : feature_constructor Goal F) goal_m fuel,
  resets_first (dune_environment s render adapter features goal_m fuel).
Proof.
  intros G St Goal F s render adapter features goal_m fuel e ts e' E. cbn in E. injection E as E _. eapply reset_type; eauto.
Qed.
Print Assumptions dune_resets_first.

Theorem default_limit : default_step_limit = 600.
Proof. reflexivity. Qed.
Print Assumptions default_limit.

(** an environment that never ends an episode by itself, with a limit of 2 *)
Definition counting : environment nat nat :=
  mkenvironment (fun e => (Ok (mktime_step FIRST 0%R 1%R e), S e)) (fun a e => (Ok (mktime_step MID 0%R 1%R e), S e)).
Example step_limit_nonvacuous : resets_first counting /\ exists h w,
  session (limited_environment counting) (new_limited 0%nat (Some 2)) h w /\
  map (fun x => ts_type (snd x)) h = [FIRST; MID; LAST; FIRST; MID] /\ map fst h = CallReset :: repeat (CallStep []) 4.
Proof.
  split; [intros e ts e' E; injection E as <- _; reflexivity|].
  pose (ts k n := mktime_step k 0%R 1%R n : time_step nat).
  exists [(CallReset, ts FIRST 0%nat); (CallStep [], ts MID 1%nat); (CallStep [], ts LAST 2%nat);
          (CallStep [], ts FIRST 3%nat); (CallStep [], ts MID 4%nat)], (mklimited (Some 2) 1 5%nat).
  split; [|split; reflexivity].
  apply (session_snoc (limited_environment counting) _ [_; _; _; _] (mklimited (Some 2) 0 4%nat)); [|reflexivity].
  apply (session_snoc (limited_environment counting) _ [_; _; _] (mklimited (Some 2) (-1) 3%nat)); [|reflexivity].
  apply (session_snoc (limited_environment counting) _ [_; _] (mklimited (Some 2) 1 2%nat)); [|reflexivity].
  apply (session_snoc (limited_environment counting) _ [_] (mklimited (Some 2) 0 1%nat)); [|reflexivity].
  apply (session_snoc (limited_environment counting) _ [] (new_limited 0%nat (Some 2))); [|reflexivity]. constructor.
Qed.
