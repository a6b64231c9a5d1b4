(** Lemmas about evaluations. *)
From Coq Require Import Reals ZArith List Bool Lia Lra Arith Permutation.
From Verif Require Import Base.Prelude Base.Rounding Base.Random Model.MicroscopeUtils Model.Graphene Model.Simulator
  Model.SimulatorObservers Model.ActionAdapters Model.Goals Model.FeatureConstructors Model.Environment Model.EvalLib
  Spec.Evaluation Proofs.BaseFacts.
Import ListNotations.
Open Scope R_scope.

Section Evaluate.
Context {A E F V : Type}.
Variable ag : agent A F.
Variable en : eval_env E F V.

Definition after (m : metrics) (h : list (exchange F)) : metrics :=
  mkmetrics (me_num_actions m + length h) (me_total_reward m + rsum (map (fun x => ts_reward (x_result x)) h))
    (me_agent_elapsed m + zsum (map (fun x => td_seconds (x_agent_seconds x)) h))%Z
    (me_environment_elapsed m + zsum (map x_elapsed h))%Z.
Definition spent (m : metrics) : timedelta := (me_agent_elapsed m + me_environment_elapsed m)%Z.

Lemma metrics_eq m m' : me_num_actions m = me_num_actions m' -> me_total_reward m = me_total_reward m' ->
  me_agent_elapsed m = me_agent_elapsed m' -> me_environment_elapsed m = me_environment_elapsed m' -> m = m'.
Proof. destruct m, m'; simpl; congruence. Qed.

Lemma goes_on_nil timeout t : @goes_on F timeout t [] <-> (t < timeout)%Z.
Proof.
  unfold goes_on, time_spent; simpl. rewrite Z.add_0_r. split; [tauto|]. intros L. split; auto.
  intros h' x K. destruct h'; discriminate.
Qed.

Lemma goes_on_cons timeout t x (h : list (exchange F)) : ts_type (x_result x) <> LAST ->
  (goes_on timeout t (x :: h) <-> goes_on timeout (t + (td_seconds (x_agent_seconds x) + x_elapsed x))%Z h).
Proof.
  intros N. unfold goes_on, time_spent; simpl. rewrite Z.add_assoc. split; intros (K & L); split; auto.
  - intros h' y ->. apply (K (x :: h')). reflexivity.
  - intros [|y h'] z Ez.
    + injection Ez as -> ->. auto.
    + injection Ez as -> ->. eapply K. reflexivity.
Qed.

Lemma goes_on_last timeout t x : ts_type (x_result x) = LAST -> ~ @goes_on F timeout t [x].
Proof. intros L (K & _). apply (K [] x); auto. Qed.

Lemma is_last_true (ts : time_step F) : is_last ts = true <-> ts_type ts = LAST.
Proof. unfold is_last. destruct (ts_type ts); split; auto; discriminate. Qed.

(** proper prefixes *)
Definition proper_prefixes (P : list (exchange F) -> Prop) (h : list (exchange F)) : Prop :=
  forall h1 x h2, h = h1 ++ x :: h2 -> P h1.
Lemma proper_prefixes_cons P x h : proper_prefixes P (x :: h) <-> P [] /\ proper_prefixes (fun l => P (x :: l)) h.
Proof.
  split.
  - intros K. split; [apply (K [] x h); auto|]. intros h1 y h2 ->. apply (K (x :: h1) y h2). reflexivity.
  - intros (K0 & K) [|z h1] y h2 Eh; auto. injection Eh as -> ->. eapply K. reflexivity.
Qed.
Lemma proper_prefixes_ext (P Q : list (exchange F) -> Prop) h : (forall l, P l <-> Q l) -> proper_prefixes P h <-> proper_prefixes Q h.
Proof. intros K. split; intros H h1 x h2 Eh; apply K; eapply H; eauto. Qed.
Lemma proper_prefixes_nil P : proper_prefixes P [].
Proof. intros [|? ?] x h2 K; discriminate. Qed.

Lemma loop_Ok fuel timeout ts m a e ts' m' a' e' :
  eval_loop ag en fuel timeout ts m a e = (Ok (ts', m'), a', e') <->
  exists h, (length h <= fuel)%nat /\ exchanges ag en ts a e h ts' a' e' /\
    proper_prefixes (goes_on timeout (spent m)) h /\ ~ goes_on timeout (spent m) h /\ m' = after m h.
Proof.
  revert ts m a e. induction fuel as [|fuel IH]; intros ts m a e; cbn [eval_loop]; fold (spent m).
  - destruct (spent m <? timeout)%Z eqn:Lt; cbn [negb].
    + split; [discriminate|]. intros (h & Lh & _ & _ & N & _). destruct h; [|simpl in Lh; lia].
      exfalso. apply N. apply goes_on_nil, Z.ltb_lt. auto.
    + apply Z.ltb_ge in Lt. split.
      * intros K. injection K as <- <- <- <-. exists []. split; auto. split; [constructor|]. split; [apply proper_prefixes_nil|].
        split; [rewrite goes_on_nil; lia|]. apply metrics_eq; simpl; lia || lra.
      * intros (h & Lh & Ex & _ & _ & ->). destruct h; [|simpl in Lh; lia]. inversion Ex; subst.
        repeat f_equal. apply metrics_eq; simpl; lia || lra.
  - destruct (spent m <? timeout)%Z eqn:Lt; cbn [negb].
    2:{ apply Z.ltb_ge in Lt. split.
      * intros K. injection K as <- <- <- <-. exists []. split; [simpl; lia|]. split; [constructor|]. split; [apply proper_prefixes_nil|].
        split; [rewrite goes_on_nil; lia|]. apply metrics_eq; simpl; lia || lra.
      * intros (h & Lh & Ex & Pp & _ & ->). destruct h as [|x h].
        -- inversion Ex; subst. repeat f_equal. apply metrics_eq; simpl; lia || lra.
        -- exfalso. apply proper_prefixes_cons in Pp as (K & _). apply goes_on_nil in K. lia. }
    apply Z.ltb_lt in Lt.
    assert (Cons : forall x h, proper_prefixes (goes_on timeout (spent m)) (x :: h) /\ ~ goes_on timeout (spent m) (x :: h) <->
      (ts_type (x_result x) = LAST /\ h = []) \/
      (ts_type (x_result x) <> LAST /\
       proper_prefixes (goes_on timeout (spent m + (td_seconds (x_agent_seconds x) + x_elapsed x))%Z) h /\
       ~ goes_on timeout (spent m + (td_seconds (x_agent_seconds x) + x_elapsed x))%Z h)).
    { intros x h. destruct (ts_type (x_result x)) eqn:T.
      1,2: (assert (N : ts_type (x_result x) <> LAST) by congruence;
        rewrite proper_prefixes_cons, goes_on_nil, goes_on_cons by auto;
        rewrite (proper_prefixes_ext _ _ h (fun l => goes_on_cons timeout (spent m) x l N)); intuition congruence).
      split.
      - intros (Pp & _). left. split; auto. destruct h as [|y h]; auto. exfalso.
        apply proper_prefixes_cons in Pp as (_ & Pp). apply proper_prefixes_cons in Pp as (K & _).
        eapply goes_on_last; eauto.
      - intros [(_ & ->)|(K & _)]; [|congruence]. split.
        + apply proper_prefixes_cons. rewrite goes_on_nil. split; auto. apply proper_prefixes_nil.
        + apply goes_on_last; auto. }
    destruct (perf_counter ag a) as [t0 a0] eqn:E0. destruct (agent_step ag ts a0) as [ra a1] eqn:E1.
    assert (NoStart : forall h, exchanges ag en ts a e h ts' a' e' -> ~ goes_on timeout (spent m) h ->
       exists act t1 a2 ts1 e1 h', ra = Ok act /\ perf_counter ag a1 = (t1, a2) /\ e_step (ee_env en) act e = (Ok ts1, e1) /\
         exchanges ag en ts1 a2 e1 h' ts' a' e' /\ h = mkexchange (t1 - t0) ts1 (ee_elapsed en e1) :: h').
    { intros h Ex N. inversion Ex as [? ? ?|? ? ? t0' a0' act' a1' t1' a2' ts1' e1' h' ? ? ? P0 P1 P2 P3 P4]; subst.
      - exfalso. apply N. apply goes_on_nil. auto.
      - assert (Q1 : (t0', a0') = (t0, a0)) by congruence. injection Q1 as -> ->.
        assert (Q2 : (Ok act', a1') = (ra, a1)) by congruence. injection Q2 as <- ->. do 6 eexists. eauto 10. }
    destruct ra as [act|x|].
    2,3: (split; [discriminate|]; intros (h & _ & Ex & _ & N & _); destruct (NoStart _ Ex N) as (? & ? & ? & ? & ? & ? & K & _); discriminate).
    destruct (perf_counter ag a1) as [t1 a2] eqn:E2. destruct (e_step (ee_env en) act e) as [re e1] eqn:E3.
    destruct re as [ts1|x|].
    2,3: (split; [discriminate|]; intros (h & _ & Ex & _ & N & _); destruct (NoStart _ Ex N) as (? & ? & ? & ? & ? & ? & K & _ & K2 & _);
      injection K as <-; congruence).
    set (x := mkexchange (t1 - t0) ts1 (ee_elapsed en e1)).
    set (m1 := mkmetrics (S (me_num_actions m)) (me_total_reward m + ts_reward ts1) (me_agent_elapsed m + td_seconds (t1 - t0))%Z
      (me_environment_elapsed m + ee_elapsed en e1)%Z).
    assert (Sp : spent m1 = (spent m + (td_seconds (x_agent_seconds x) + x_elapsed x))%Z) by (unfold spent, m1, x; simpl; lia).
    assert (Af : forall h, after m1 h = after m (x :: h)) by (intros h; apply metrics_eq; unfold m1, x; simpl; lia || lra).
    assert (Iff : (exists h, (length h <= S fuel)%nat /\ exchanges ag en ts a e h ts' a' e' /\
        proper_prefixes (goes_on timeout (spent m)) h /\ ~ goes_on timeout (spent m) h /\ m' = after m h) <->
      (exists h, (length h <= fuel)%nat /\ exchanges ag en ts1 a2 e1 h ts' a' e' /\
        ((ts_type ts1 = LAST /\ h = []) \/
         (ts_type ts1 <> LAST /\ proper_prefixes (goes_on timeout (spent m1)) h /\ ~ goes_on timeout (spent m1) h)) /\
        m' = after m1 h)).
    { split.
      - intros (h & Lh & Ex & Pp & N & ->). destruct (NoStart _ Ex N) as (act' & t1' & a2' & ts1' & e1' & h' & Q1 & Q2 & Q3 & Ex' & ->).
        injection Q1 as <-. injection Q2 as <- <-. assert (Q : (Ok ts1, e1) = (Ok ts1', e1')) by congruence. injection Q as <- <-.
        exists h'. split; [simpl in Lh; lia|]. split; auto. split; [|symmetry; apply Af]. rewrite Sp. apply (proj1 (Cons x h')). auto.
      - intros (h & Lh & Ex & K & ->). exists (x :: h). split; [simpl; lia|]. split; [econstructor; eauto|].
        rewrite <- and_assoc. split; [|apply Af]. apply (proj2 (Cons x h)). rewrite <- Sp. exact K. }
    rewrite Iff. clear Iff Cons NoStart. destruct (is_last ts1) eqn:Il.
    + apply is_last_true in Il. split.
      * intros K. injection K as <- <- <- <-. exists []. split; [simpl; lia|]. split; [constructor|]. split; auto.
        apply metrics_eq; simpl; lia || lra.
      * intros (h & _ & Ex & [(_ & ->)|(K & _)] & ->); [|congruence]. inversion Ex; subst. repeat f_equal.
        apply metrics_eq; simpl; lia || lra.
    + assert (Nl : ts_type ts1 <> LAST) by (rewrite <- is_last_true; congruence).
      rewrite IH. split; intros (h & H1 & H2 & H3); exists h; intuition.
Qed.

Definition stuck (x : exn) (ts : time_step F) (a : A) (e : E) (a' : A) (e' : E) : Prop :=
  exists t0 a2, perf_counter ag a = (t0, a2) /\
    ((agent_step ag ts a2 = (Raise x, a') /\ e' = e) \/
     exists act a3 t1, agent_step ag ts a2 = (Ok act, a3) /\ perf_counter ag a3 = (t1, a') /\
       e_step (ee_env en) act e = (Raise x, e')).

Lemma loop_Raise fuel timeout ts m a e x a' e' :
  eval_loop ag en fuel timeout ts m a e = (Raise x, a', e') <->
  exists h ts1 a1 e1, (length h < fuel)%nat /\ exchanges ag en ts a e h ts1 a1 e1 /\
    proper_prefixes (goes_on timeout (spent m)) h /\ goes_on timeout (spent m) h /\ stuck x ts1 a1 e1 a' e'.
Proof.
  revert ts m a e. induction fuel as [|fuel IH]; intros ts m a e; cbn [eval_loop]; fold (spent m).
  - split; [|intros (h & ? & ? & ? & Lh & _); lia]. destruct (negb (spent m <? timeout)%Z); discriminate.
  - destruct (spent m <? timeout)%Z eqn:Lt; cbn [negb].
    2:{ apply Z.ltb_ge in Lt. split; [discriminate|]. intros (h & ts1 & a1 & e1 & _ & Ex & Pp & Go & _). exfalso.
      destruct h as [|y h]; [apply goes_on_nil in Go; lia|]. apply proper_prefixes_cons in Pp as (K & _). apply goes_on_nil in K. lia. }
    apply Z.ltb_lt in Lt.
    assert (Cons : forall y h, proper_prefixes (goes_on timeout (spent m)) (y :: h) /\ goes_on timeout (spent m) (y :: h) <->
      (ts_type (x_result y) <> LAST /\
       proper_prefixes (goes_on timeout (spent m + (td_seconds (x_agent_seconds y) + x_elapsed y))%Z) h /\
       goes_on timeout (spent m + (td_seconds (x_agent_seconds y) + x_elapsed y))%Z h)).
    { intros y h. destruct (ts_type (x_result y)) eqn:T.
      1,2: (assert (N : ts_type (x_result y) <> LAST) by congruence;
        rewrite proper_prefixes_cons, goes_on_nil, goes_on_cons by auto;
        rewrite (proper_prefixes_ext _ _ h (fun l => goes_on_cons timeout (spent m) y l N)); intuition congruence).
      split; [|intros (K & _); congruence]. intros (Pp & Go). exfalso. destruct h as [|z h].
      - eapply goes_on_last; eauto.
      - apply proper_prefixes_cons in Pp as (_ & Pp). apply proper_prefixes_cons in Pp as (K & _).
        eapply goes_on_last; eauto. }
    assert (Iff : (exists h ts1 a1 e1, (length h < S fuel)%nat /\ exchanges ag en ts a e h ts1 a1 e1 /\
       proper_prefixes (goes_on timeout (spent m)) h /\ goes_on timeout (spent m) h /\ stuck x ts1 a1 e1 a' e') <->
      (stuck x ts a e a' e' \/
       exists t0 a0 act a1 t1 a2 ts1 e1, perf_counter ag a = (t0, a0) /\ agent_step ag ts a0 = (Ok act, a1) /\
         perf_counter ag a1 = (t1, a2) /\ e_step (ee_env en) act e = (Ok ts1, e1) /\ ts_type ts1 <> LAST /\
         exists h ts2 a3 e2, (length h < fuel)%nat /\ exchanges ag en ts1 a2 e1 h ts2 a3 e2 /\
           let t := (spent m + (td_seconds (t1 - t0) + ee_elapsed en e1))%Z in
           proper_prefixes (goes_on timeout t) h /\ goes_on timeout t h /\ stuck x ts2 a3 e2 a' e')).
    { split.
      - intros (h & ts1 & a1 & e1 & Lh & Ex & Pp & Go & Sk).
        inversion Ex as [? ? ?|? ? ? t0' a0' act' a1' t1' a2' ts1' e1' h' ? ? ? P0 P1 P2 P3 P4]; subst; auto.
        right. destruct (proj1 (Cons _ h') (conj Pp Go)) as (C1 & C2 & C3). cbn [x_result x_agent_seconds x_elapsed] in *.
        do 8 eexists. repeat (split; [eassumption|]). exists h'. do 3 eexists. split; [simpl in Lh; lia|]. cbv zeta. eauto.
      - intros [Sk|(t0 & a0 & act & a1 & t1 & a2 & ts1 & e1 & P0 & P1 & P2 & P3 & Nl & h & ts2 & a3 & e2 & Lh & Ex & Pp & Go & Sk)].
        + exists [], ts, a, e. split; [simpl; lia|]. split; [constructor|]. split; [apply proper_prefixes_nil|].
          split; [apply goes_on_nil; auto|auto].
        + exists (mkexchange (t1 - t0) ts1 (ee_elapsed en e1) :: h), ts2, a3, e2. split; [simpl; lia|]. split; [econstructor; eauto|].
          rewrite <- and_assoc. split; auto. apply (proj2 (Cons _ h)). auto. }
    rewrite Iff. clear Iff Cons. unfold stuck at 1.
    destruct (perf_counter ag a) as [t0 a0] eqn:E0. destruct (agent_step ag ts a0) as [ra a1] eqn:E1.
    assert (Start : (exists (t1 : R) (a2 : A), (t0, a0) = (t1, a2) /\
       ((agent_step ag ts a2 = (Raise x, a') /\ e' = e) \/
        exists act a3 t2, agent_step ag ts a2 = (Ok act, a3) /\ perf_counter ag a3 = (t2, a') /\ e_step (ee_env en) act e = (Raise x, e'))) <->
      ((ra, a1) = (Raise x, a') /\ e' = e) \/
        exists act t2, ra = Ok act /\ perf_counter ag a1 = (t2, a') /\ e_step (ee_env en) act e = (Raise x, e')).
    { split.
      - intros (t1 & a2 & K & [(K1 & ->)|(act & a3 & t2 & K1 & K2 & K3)]); injection K as <- <-; rewrite E1 in K1.
        + auto.
        + injection K1 as -> ->. eauto 10.
      - intros [(K1 & ->)|(act & t2 & -> & K2 & K3)]; exists t0, a0; (split; [reflexivity|]).
        + left. rewrite E1. auto.
        + right. eauto 10. }
    rewrite Start. clear Start.
    destruct ra as [act|y|].
    2:{ split.
      - intros K. injection K as -> -> ->. left. left. auto.
      - intros [[(K & ->)|(act & t2 & K & _)]|(? & ? & act & ? & ? & ? & ? & ? & K0 & K & _)]; try discriminate.
        + congruence.
        + injection K0 as <- <-. congruence. }
    2:{ split; [discriminate|].
      intros [[(K & ->)|(act & t2 & K & _)]|(? & ? & act & ? & ? & ? & ? & ? & K0 & K & _)]; try discriminate.
      injection K0 as <- <-. congruence. }
    destruct (perf_counter ag a1) as [t1 a2] eqn:E2. destruct (e_step (ee_env en) act e) as [re e1] eqn:E3.
    assert (Next : (exists t0' a0' act' a1' t1' a2' ts1 e1', (t0, a0) = (t0', a0') /\ agent_step ag ts a0' = (Ok act', a1') /\
         perf_counter ag a1' = (t1', a2') /\ e_step (ee_env en) act' e = (Ok ts1, e1') /\ ts_type ts1 <> LAST /\
         exists h ts2 a3 e2, (length h < fuel)%nat /\ exchanges ag en ts1 a2' e1' h ts2 a3 e2 /\
           let t := (spent m + (td_seconds (t1' - t0') + ee_elapsed en e1'))%Z in
           proper_prefixes (goes_on timeout t) h /\ goes_on timeout t h /\ stuck x ts2 a3 e2 a' e') <->
       exists ts1, re = Ok ts1 /\ ts_type ts1 <> LAST /\
         exists h ts2 a3 e2, (length h < fuel)%nat /\ exchanges ag en ts1 a2 e1 h ts2 a3 e2 /\
           let t := (spent m + (td_seconds (t1 - t0) + ee_elapsed en e1))%Z in
           proper_prefixes (goes_on timeout t) h /\ goes_on timeout t h /\ stuck x ts2 a3 e2 a' e').
    { split.
      - intros (? & ? & ? & ? & ? & ? & ts1 & ? & K0 & K1 & K2 & K3 & K4). injection K0 as <- <-.
        rewrite E1 in K1. injection K1 as <- <-. rewrite E2 in K2. injection K2 as <- <-. rewrite E3 in K3. injection K3 as -> <-.
        exists ts1. split; auto.
      - intros (ts1 & -> & K). exists t0, a0, act, a1, t1, a2, ts1, e1. auto 10. }
    rewrite Next. clear Next.
    destruct re as [ts1|y|].
    + set (m1 := mkmetrics (S (me_num_actions m)) (me_total_reward m + ts_reward ts1) (me_agent_elapsed m + td_seconds (t1 - t0))%Z
        (me_environment_elapsed m + ee_elapsed en e1)%Z).
      assert (Sp : spent m1 = (spent m + (td_seconds (t1 - t0) + ee_elapsed en e1))%Z) by (unfold spent, m1; simpl; lia).
      rewrite <- Sp. destruct (is_last ts1) eqn:Il.
      * apply is_last_true in Il. split; [discriminate|].
        intros [[(K & _)|(act' & t2 & K & _ & K2)]|(ts2 & K & N & _)]; try discriminate.
        -- injection K as <-. congruence.
        -- injection K as <-. congruence.
      * assert (Nl : ts_type ts1 <> LAST) by (rewrite <- is_last_true; congruence). rewrite IH. split.
        -- intros K. right. exists ts1. auto.
        -- intros [[(K & _)|(act' & t2 & K & _ & K2)]|(ts2 & K & N & K2)]; try discriminate.
           ++ injection K as <-. congruence.
           ++ injection K as <-. exact K2.
    + split.
      * intros K. injection K as -> -> ->. left. right. exists act, t1. auto.
      * intros [[(K & _)|(act' & t2 & K & K1 & K2)]|(ts2 & K & _)]; try discriminate. injection K as <-. congruence.
    + split; [discriminate|]. intros [[(K & _)|(act' & t2 & K & K1 & K2)]|(ts2 & K & _)]; try discriminate. injection K as <-. congruence.
Qed.

(** one seed *)
Lemma zsum_plus {B} (f g : B -> Z) l : zsum (map (fun x => f x + g x)%Z l) = (zsum (map f l) + zsum (map g l))%Z.
Proof. induction l as [|x l IH]; simpl; [reflexivity|]. rewrite IH. lia. Qed.

Lemma result_reports seed ts start h :
  reports (result_of seed ts (after (mkmetrics 0 0 0%Z start) h)) seed start h ts.
Proof.
  unfold reports, result_of, after; cbn [me_num_actions me_total_reward me_agent_elapsed me_environment_elapsed
    er_seed er_reached_goal er_num_actions_taken er_agent_seconds_to_goal er_environment_seconds_to_goal er_total_reward].
  split; auto. split; auto. split; [lra|].
  assert (K : is_last ts && Reqb (ts_discount ts) 0 = true <-> ts_type ts = LAST /\ ts_discount ts = 0).
  { rewrite andb_true_iff, is_last_true, Reqb_true. tauto. }
  split; [exact K|]. split; intros ->; split; reflexivity.
Qed.

Lemma reports_unique r r' seed start (h : list (exchange F)) ts : reports r seed start h ts -> reports r' seed start h ts -> r = r'.
Proof.
  destruct r as [a b c d e f], r' as [a' b' c' d' e' f'].
  unfold reports; cbn [er_seed er_reached_goal er_num_actions_taken er_agent_seconds_to_goal er_environment_seconds_to_goal er_total_reward].
  intros (-> & -> & -> & B & N & Y) (-> & -> & -> & B' & N' & Y').
  assert (Eb : b = b') by (destruct b, b'; auto; [symmetry; apply B', B|apply B, B']; auto). subst b'.
  destruct b; [destruct (Y eq_refl), (Y' eq_refl)|destruct (N eq_refl), (N' eq_refl)]; congruence.
Qed.

Lemma seed_Ok fuel timeout seed a e r a' e' :
  eval_seed ag en fuel timeout seed a e = (Ok r, a', e') <->
  exists start h ts, attempt ag en timeout seed a e start h ts a' e' /\ (length h <= fuel)%nat /\ reports r seed start h ts.
Proof.
  unfold eval_seed, attempt. destruct (e_reset (ee_env en) (ee_seed en seed e)) as [r0 e1] eqn:E0.
  destruct r0 as [ts0|x|].
  2,3: (split; [discriminate|]; intros (? & ? & ? & (? & ? & K & _) & _); discriminate).
  destruct (eval_loop ag en fuel timeout ts0 (mkmetrics 0 0 0%Z (ee_elapsed en e1)) a e1) as [[r1 a1] e2] eqn:E1. split.
  - intros K. destruct r1 as [[ts m]|x|]; try discriminate. injection K as <- -> ->.
    apply loop_Ok in E1 as (h & Lh & Ex & Pp & N & ->). exists (ee_elapsed en e1), h, ts.
    split; [|split; auto; apply result_reports]. exists ts0, e1. auto.
  - intros (start & h & ts & (ts0' & e1' & K & -> & Ex & Pp & N) & Lh & Rp). injection K as <- <-.
    assert (E2 : eval_loop ag en fuel timeout ts0 (mkmetrics 0 0 0%Z (ee_elapsed en e1)) a e1 =
      (Ok (ts, after (mkmetrics 0 0 0%Z (ee_elapsed en e1)) h), a', e')).
    { apply loop_Ok. exists h. auto. }
    rewrite E2 in E1. injection E1 as <- <- <-. repeat f_equal. eapply reports_unique; [apply result_reports|exact Rp].
Qed.

Lemma seed_Raise fuel timeout seed a e x a' e' :
  eval_seed ag en fuel timeout seed a e = (Raise x, a', e') <-> attempt_raises ag en fuel timeout seed a e x a' e'.
Proof.
  unfold eval_seed, attempt_raises. destruct (e_reset (ee_env en) (ee_seed en seed e)) as [r0 e1] eqn:E0.
  destruct r0 as [ts0|y|].
  2:{ split.
    - intros K. injection K as -> -> ->. auto.
    - intros [(K & ->)|(? & ? & ? & ? & ? & ? & ? & ? & K & _)]; [congruence|discriminate]. }
  2:{ split; [discriminate|]. intros [(K & _)|(? & ? & ? & ? & ? & ? & ? & ? & K & _)]; discriminate. }
  destruct (eval_loop ag en fuel timeout ts0 (mkmetrics 0 0 0%Z (ee_elapsed en e1)) a e1) as [[r1 a1] e2] eqn:E1.
  assert (Red : (match r1 with Ok (ts, m) => (Ok (result_of seed ts m), a1, e2) | Raise z => (Raise z, a1, e2) | OutOfFuel => (OutOfFuel, a1, e2) end
     : res eval_result * A * E) = (Raise x, a', e') <-> (r1, a1, e2) = (Raise x, a', e')).
  { destruct r1 as [[ts m]|z|]; split; intros K; try discriminate; injection K; intros; subst; reflexivity. }
  etransitivity; [exact Red|]. rewrite <- E1, loop_Raise. split.
  - intros (h & ts1 & a2 & e3 & Lh & Ex & Pp & Go & (t0 & a4 & P0 & Sk)). right.
    exists ts0, e1, h, ts1, a2, e3, t0, a4. repeat (split; [assumption || reflexivity|]). exact Sk.
  - intros [(K & _)|(ts0' & e1' & h & ts1 & a2 & e3 & t0 & a4 & K & Lh & Ex & Pp & Go & P0 & Sk)]; [discriminate|].
    injection K as <- <-. exists h, ts1, a2, e3. repeat (split; [assumption|]). exists t0, a4. auto.
Qed.

(** all seeds *)
Lemma seeds_Ok fuel timeout video seeds a e rs vs a' e' :
  eval_seeds ag en fuel timeout video seeds a e = (Ok rs, vs, a', e') <->
  attempts ag en fuel timeout video seeds a e rs vs a' e'.
Proof.
  revert a e rs vs. induction seeds as [|seed seeds IH]; intros a e rs vs; cbn [eval_seeds].
  - split; [intros K; injection K as <- <- <- <-; constructor|intros K; inversion K; subst; reflexivity].
  - destruct (eval_seed ag en fuel timeout seed a e) as [[r a1] e1] eqn:E1.
    destruct (eval_seeds ag en fuel timeout video seeds a1 e1) as [[[r2 ws] a2] e2] eqn:E2. split.
    + intros K. destruct r as [r|x|]; try discriminate. apply seed_Ok in E1 as (start & h & ts & At & Lh & Rp).
      destruct (if video then fmap_res (fun v => [(seed, v)]) (ee_video en e1) else Ok []) as [vs1|x|] eqn:Ev; try discriminate.
      destruct r2 as [rs2|x|]; try discriminate. cbn in K. injection K as <- <- <- <-.
      econstructor; eauto.
      * destruct video; [|congruence]. destruct (ee_video en e1) as [w|x|]; try discriminate. exists w. split; auto. cbn in Ev. congruence.
      * apply IH. exact E2.
    + intros K. inversion K as [|? ? ? ? start h ts a1' e1' r' rs' v' vs' ? ? At Lh Rp Hv Ats]; subst.
      assert (E1' : eval_seed ag en fuel timeout seed a e = (Ok r', a1', e1')) by (apply seed_Ok; eauto 10).
      rewrite E1' in E1. injection E1 as <- <- <-. apply IH in Ats. rewrite E2 in Ats. injection Ats as -> -> -> ->.
      destruct video.
      * destruct Hv as (w & -> & ->). reflexivity.
      * subst v'. reflexivity.
Qed.

Lemma seeds_Raise fuel timeout video seeds a e x vs a' e' :
  eval_seeds ag en fuel timeout video seeds a e = (Raise x, vs, a', e') <->
  exists done seed rest rs a1 e1, seeds = done ++ seed :: rest /\ attempts ag en fuel timeout video done a e rs vs a1 e1 /\
    (attempt_raises ag en fuel timeout seed a1 e1 x a' e' \/
     exists start h ts, attempt ag en timeout seed a1 e1 start h ts a' e' /\ (length h <= fuel)%nat /\
       video = true /\ ee_video en e' = Raise x).
Proof.
  revert a e vs. induction seeds as [|seed seeds IH]; intros a e vs; cbn [eval_seeds].
  - split; [discriminate|]. intros ([|? ?] & ? & ? & ? & ? & ? & K & _); discriminate.
  - destruct (eval_seed ag en fuel timeout seed a e) as [[r a1] e1] eqn:E1.
    destruct (eval_seeds ag en fuel timeout video seeds a1 e1) as [[[r2 ws] a2] e2] eqn:E2. split.
    + intros K. destruct r as [r|y|]; [|injection K as -> <- -> ->|discriminate].
      * pose proof E1 as E1'. apply seed_Ok in E1' as (start & h & ts & At & Lh & Rp).
        destruct (if video then fmap_res (fun v => [(seed, v)]) (ee_video en e1) else Ok []) as [vs1|y|] eqn:Ev.
        -- destruct r2 as [rs2|y|]; try discriminate. cbn in K. injection K as -> <- -> ->.
           apply IH in E2 as (done & sd & rest & rs & a3 & e3 & -> & Ats & K).
           exists (seed :: done), sd, rest, (r :: rs), a3, e3. split; auto. split; auto.
           econstructor; eauto. destruct video; [|congruence].
           destruct (ee_video en e1) as [w|z|]; try discriminate. exists w. split; auto. cbn in Ev. congruence.
        -- injection K as -> <- -> ->. destruct video; [|discriminate].
           exists [], seed, seeds, [], a, e. split; auto. split; [constructor|]. right. exists start, h, ts.
           split; auto. split; auto. split; auto. destruct (ee_video en e') as [w|z|]; try discriminate. cbn in Ev. congruence.
        -- discriminate.
      * apply seed_Raise in E1. exists [], seed, seeds, [], a, e. split; auto. split; [constructor|]. auto.
    + intros (done & sd & rest & rs & a3 & e3 & Es & Ats & K). destruct done as [|d done].
      * injection Es as <- <-. inversion Ats; subst. destruct K as [K|(start & h & ts & At & Lh & -> & Hv)].
        -- apply seed_Raise in K. rewrite K in E1. injection E1 as <- <- <-. reflexivity.
        -- assert (E1' : exists r', eval_seed ag en fuel timeout seed a3 e3 = (Ok r', a', e')).
           { eexists. apply seed_Ok. do 3 eexists. split; [exact At|]. split; [exact Lh|]. apply result_reports. }
           destruct E1' as (r' & E1'). rewrite E1' in E1. injection E1 as <- <- <-. rewrite Hv. reflexivity.
      * injection Es as <- ->. inversion Ats as [|? ? ? ? start h ts a1' e1' r' rs' v' vs' ? ? At Lh Rp Hv Ats']; subst.
        assert (E1' : eval_seed ag en fuel timeout seed a e = (Ok r', a1', e1')) by (apply seed_Ok; eauto 10).
        rewrite E1' in E1. injection E1 as <- <- <-.
        assert (E2' : eval_seeds ag en fuel timeout video (done ++ sd :: rest) a1' e1' = (Raise x, vs', a', e')).
        { apply IH. exists done, sd, rest, rs', a3, e3. auto. }
        rewrite E2' in E2. injection E2 as <- <- <- <-. destruct video.
        -- destruct Hv as (w & -> & ->). reflexivity.
        -- subst v'. reflexivity.
Qed.
End Evaluate.
