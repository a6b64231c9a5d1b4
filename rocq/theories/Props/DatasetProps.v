(** C91: the datasets that the models of an ensemble are trained and tested on *)
From Coq Require Import Reals ZArith List Bool Arith Lia Lra Permutation.
From Flocq Require Import Core.
From Verif Require Import Base.Prelude Base.Rounding Model.DataUtils Model.MicroscopeUtils Model.LearnRates Spec.Splitting Spec.Augmenting
  Proofs.BaseFacts Proofs.MaterialFacts Props.AugmentProps Props.SplitProps.
Import ListNotations.
Open Scope R_scope.
Open Scope res_scope.

(** the row of a dataset as an example: its context followed by its position *)
Definition as_example (d : datapoint) (e : example) : Prop :=
  e_next_state e = d_state d /\ e_dt e = d_time d /\
  exists c, d_context d = Some c /\ e_context e = c ++ [px (d_position d); py (d_position d)].
Definition augmented (augment : bool) (l l' : list datapoint) : Prop := if augment then augment_data true 3 l = Ok l' else l' = l.

Section Splits.
Context {K : Type}.
Variable split : K -> nat -> list K.
Hypothesis splits : forall k n, length (split k n) = n.
Variable dr : draws K.
Hypothesis dr_boot : forall k n, length (dr_bootstrap _ dr k n) = n /\ Forall (fun i => (i < n)%nat) (dr_bootstrap _ dr k n).
Hypothesis dr_perm : forall k n, Permutation (dr_choice _ dr k n) (seq 0 n).
Hypothesis dr_set : forall l, Permutation (dr_set_order _ dr l) l.

Lemma to_example_as d e : to_example d = Ok e <-> as_example d e.
Proof.
  unfold to_example, as_example. destruct e as [ns dt c]. cbn. destruct (d_context d) as [c0|] eqn:Ec; split.
  - intros E. injection E as <- <- <-. eauto.
  - intros (-> & -> & c1 & E & ->). injection E as ->. auto.
  - discriminate.
  - intros (_ & _ & c1 & E & _). discriminate.
Qed.
Lemma to_examples l es : map_res to_example l = Ok es <-> Forall2 as_example l es.
Proof. rewrite map_res_Ok. split; intros H; induction H; constructor; auto; apply to_example_as; auto. Qed.
Lemma augmented_all (augment : bool) ls out : (if augment then map_res (augment_data true 3) ls else Ok ls) = Ok out <-> Forall2 (augmented augment) ls out.
Proof.
  unfold augmented. destruct augment; [apply map_res_Ok|]. split.
  - intros E. injection E as <-. induction ls; constructor; auto.
  - intros F. f_equal. induction F; congruence.
Qed.
Lemma min_length_le {A} (l : list (list A)) n : min_length l = Ok n -> (forall x, In x l -> (n <= length x)%nat) /\ exists x, In x l /\ length x = n.
Proof.
  unfold min_length. destruct l as [|a l]; cbn; [discriminate|]. intros E. injection E as <-.
  induction l as [|b l [IH1 (x & Hx & Ex)]]; cbn.
  - split; [intros x [<-|[]]; auto|]. exists a. auto.
  - set (m := fold_right Nat.min (length a) (map (@length A) l)) in *. split.
    + intros y [<-|[<-|Hy]]; [|lia|].
      * specialize (IH1 a (or_introl eq_refl)). lia.
      * specialize (IH1 y (or_intror Hy)). lia.
    + destruct (Nat.le_ge_cases (length b) m).
      * exists b. split; auto. lia.
      * exists x. split; [destruct Hx as [<-|Hx]; auto|]. lia.
Qed.
Lemma same_lengths_true {A} (l : list (list A)) : same_lengths l = true <-> forall x y, In x l -> In y l -> length x = length y.
Proof.
  destruct l as [|a l]; cbn; [split; [intros _ x y []|auto]|]. rewrite forallb_forall. split.
  - intros H x y Hx Hy. assert (Q : forall z, a = z \/ In z l -> length z = length a) by (intros z [<-|Hz]; auto; apply Nat.eqb_eq; auto). rewrite (Q x Hx), (Q y Hy). auto.
  - intros H x Hx. apply Nat.eqb_eq. apply H; auto.
Qed.

(** how the rows of the i-th pair of datasets are chosen *)
Definition chosen (data : list datapoint) (bootstrap : bool) (fraction : R) (pr : list datapoint * list datapoint) : Prop :=
  if bootstrap then bootstrapped data (fst pr) (snd pr) /\ snd pr <> []
  else (0 < fraction < 1 /\ parted data (fst pr) (snd pr)) \/ (fraction = 0 /\ pr = (data, data)).

(** C91: what the datasets are *)
Theorem dataset_splits data num key bootstrap augment fraction trains tests :
  create_dataset_splits K split dr data num key bootstrap augment fraction = Ok (trains, tests) ->
  exists pairs, length pairs = num /\ (0 < num)%nat /\ Forall (chosen data bootstrap fraction) pairs /\
    Forall2 (fun pr tr => exists rows, augmented augment (fst pr) rows /\ Forall2 as_example rows tr) pairs trains /\
    (forall tr tr', In tr trains -> In tr' trains -> length tr = length tr') /\
    exists n, (forall te, In te tests -> length te = n) /\
      Forall2 (fun pr te => exists rows es, augmented augment (snd pr) rows /\ Forall2 as_example rows es /\ te = firstn n es) pairs tests /\
      exists pr rows, In pr pairs /\ augmented augment (snd pr) rows /\ length rows = n.
Proof.
  unfold create_dataset_splits. intros H.
  set (no_context := existsb _ data) in H.
  match type of H with bind ?x _ = _ => destruct x as [ds|e|] eqn:Ed; cbn [bind] in H; try discriminate end.
  assert (Dd : length ds = num /\ Forall (chosen data bootstrap fraction) ds).
  { unfold chosen. destruct bootstrap.
    - destruct no_context; [destruct num; [injection Ed as <-; auto|discriminate]|].
      apply map_res_Ok in Ed. split; [rewrite <- (splits key num); symmetry; apply (Forall2_len _ _ _ Ed)|].
      clear - Ed dr_boot dr_set. induction Ed as [|k pr l l' E _ IH]; constructor; auto. destruct pr as [tr te]. cbn.
      destruct (dr_boot k (length data)) as [L F]. destruct (bootstrap_parts _ _ _ _ _ dr_set L F E) as (A & _ & tp & B & C & D). split.
      + exists (dr_bootstrap _ dr k (length data)), tp. auto.
      + unfold bootstrap_dataset in E. destruct (rows_at data (dr_bootstrap _ dr k (length data))); cbn in E; try discriminate.
        destruct (dr_set_order _ dr _) as [|i is]; [discriminate|]. destruct (rows_at data (i :: is)) as [t|e|] eqn:Et; cbn in E; try discriminate. injection E as _ <-.
        unfold rows_at in Et. cbn in Et. destruct (nth_error data i); [|discriminate]. destruct (take_idx data is); [|discriminate]. injection Et as <-. discriminate.
    - destruct (Rltb fraction 1 && Rltb 0 fraction) eqn:Ef.
      + apply andb_true_iff in Ef. destruct Ef as [F1 F0]. apply Rltb_true in F1, F0. destruct no_context; [destruct num; [injection Ed as <-; auto|discriminate]|].
        apply map_res_Ok in Ed. split; [rewrite <- (splits key num); symmetry; apply (Forall2_len _ _ _ Ed)|].
        clear - Ed dr_perm F0 F1. induction Ed as [|k pr l l' E _ IH]; constructor; auto. left. split; [auto|]. destruct pr as [tr te]. cbn.
        destruct (split_partition _ fraction data (dr_perm k (length data))) as (tr' & te' & p1 & p2 & E' & Ei & R1 & R2 & _). rewrite E' in E. injection E as <- <-.
        exists p1, p2. split; auto. split; auto. rewrite Permutation_app_comm, <- Ei. auto.
      + destruct (Reqb fraction 0) eqn:E0; [|discriminate]. injection Ed as <-. rewrite repeat_length. split; auto.
        assert (fraction = 0) by (unfold Reqb in E0; destruct (Req_EM_T fraction 0); [auto|discriminate]).
        apply Forall_forall. intros pr Hpr. apply repeat_spec in Hpr. auto. }
  destruct Dd as [Ld Cd].
  match type of H with bind ?x _ = _ => destruct x as [tr1|e|] eqn:Et1; cbn [bind] in H; try discriminate end.
  match type of H with bind ?x _ = _ => destruct x as [te1|e|] eqn:Ee1; cbn [bind] in H; try discriminate end.
  destruct (map_res (map_res to_example) tr1) as [tr2|e|] eqn:Et2; cbn [bind] in H; try discriminate.
  destruct (map_res (map_res to_example) te1) as [te2|e|] eqn:Ee2; cbn [bind] in H; try discriminate.
  destruct (min_length te2) as [n|e|] eqn:En; cbn [bind] in H; try discriminate.
  destruct (same_lengths tr2 && same_lengths (map (firstn n) te2)) eqn:Es; [|discriminate]. injection H as <- <-.
  apply andb_true_iff in Es. destruct Es as [S1 S2]. rewrite same_lengths_true in S1, S2.
  apply augmented_all in Et1, Ee1. apply map_res_Ok in Et2, Ee2.
  destruct (min_length_le _ _ En) as [M1 (x & Hx & Mx)].
  exists ds. split; [auto|]. split.
  { rewrite <- Ld. destruct ds; cbn; [|lia]. inversion Ee1; subst. inversion Ee2; subst. destruct Hx. }
  split; [auto|]. split; [|split; [auto|]].
  - assert (Q : exists m, Forall2 (fun pr mm => mm = fst pr) ds m /\ Forall2 (augmented augment) m tr1).
    { exists (map fst ds). split; auto. clear. induction ds; constructor; auto. }
    destruct Q as (m & Q1 & Q2). clear - Q1 Q2 Et2. revert m tr1 Q1 Q2 Et2. revert tr2.
    induction ds as [|d ds IH]; intros tr2 m tr1 Q1 Q2 Et2; inversion Q1; subst; inversion Q2; subst; inversion Et2; subst; constructor; [|eapply IH; eauto].
    eexists. split; [eauto|]. apply to_examples. auto.
  - exists n. split; [|split].
    + intros te Hte. apply in_map_iff in Hte. destruct Hte as (y & <- & Hy). rewrite firstn_length. specialize (M1 _ Hy). lia.
    + assert (Q : exists m, Forall2 (fun pr mm => mm = snd pr) ds m /\ Forall2 (augmented augment) m te1).
      { exists (map snd ds). split; auto. clear. induction ds; constructor; auto. }
      destruct Q as (m & Q1 & Q2). clear - Q1 Q2 Ee2. revert m te1 Q1 Q2 Ee2. revert te2.
      induction ds as [|d ds IH]; intros tr2 m tr1 Q1 Q2 Et2; inversion Q1; subst; inversion Q2; subst; inversion Et2; subst; constructor; [|eapply IH; eauto].
      exists y, y0. split; [auto|]. split; [apply to_examples; auto|auto].
    + clear - Ee1 Ee2 Hx Mx. remember (map snd ds) as m eqn:Em. revert ds Em te2 Ee2 Hx. induction Ee1 as [|a b l l' A _ IH]; intros ds Em te2 Ee2 Hx; inversion Ee2; subst; [destruct Hx|].
      destruct ds as [|d ds]; [discriminate|]. injection Em as -> ->. destruct Hx as [<-|Hx].
      * exists d, b. split; [left; auto|]. split; auto. apply to_examples in H1. apply Forall2_len in H1. auto.
      * destruct (IH ds eq_refl _ H3 Hx) as (pr & rows & I1 & I2 & I3). exists pr, rows. split; [right; auto|auto].
Qed.

(** a row that can become examples *)
Definition usable (augment : bool) (d : datapoint) : Prop := d_context d <> None /\ (augment = true -> length (d_rates d) = 3%nat /\ proper 3 d).
Lemma copies_usable ds out : augment_data true 3 ds = Ok out -> Forall (usable true) ds -> Forall (fun d => d_context d <> None) out.
Proof.
  intros E U. assert (P : Forall (proper 3) ds) by (apply Forall_forall; intros d Hd; rewrite Forall_forall in U; apply (U d Hd); auto).
  destruct (augment_copies ds P) as (refs & out' & M & E' & L & C). rewrite E in E'. injection E' as <-.
  apply Forall_forall. intros d' Hd'. apply In_nth_error in Hd'. destruct Hd' as (j & Hj).
  assert (Hl : (j < 2 * 3 * length ds)%nat) by (rewrite <- L; apply nth_error_Some; congruence).
  assert (Lr : length (ds ++ refs) = (2 * length ds)%nat) by (rewrite app_length, <- (Forall2_len _ _ _ M); lia).
  assert (Hi : (j / 3 < 2 * length ds)%nat) by (apply Nat.div_lt_upper_bound; lia).
  destruct (nth_error (ds ++ refs) (j / 3)) as [d|] eqn:Ed; [|apply nth_error_None in Ed; lia].
  destruct (C (j / 3)%nat (j mod 3)%nat d) as (d1 & E1 & T); [apply Nat.mod_upper_bound; lia|auto|].
  replace (j / 3 * 3 + j mod 3)%nat with j in E1 by (pose proof (Nat.div_mod j 3 ltac:(lia)); lia). rewrite Hj in E1. injection E1 as <-.
  rewrite (turned_context _ _ _ _ T). apply nth_error_In in Ed. apply in_app_or in Ed. destruct Ed as [Hd|Hd].
  - rewrite Forall_forall in U. apply (U d Hd).
  - clear - Hd M U. induction M as [|a b l l' Mab _ IH]; [destruct Hd|]. inversion U; subst. destruct Hd as [<-|Hd]; [|auto]. rewrite (mirror_context _ _ Mab). apply H1.
Qed.
Lemma examples_succeed l : Forall (fun d => d_context d <> None) l -> exists es, map_res to_example l = Ok es.
Proof.
  induction 1 as [|d l H _ (es & IH)]; [exists []; auto|]. cbn. unfold to_example at 1. destruct (d_context d) as [c|]; [|congruence]. cbn. rewrite IH. cbn. eauto.
Qed.
Definition finish (augment : bool) (datasets : list (list datapoint * list datapoint)) :=
  (trains <- (if augment then map_res (augment_data true 3) (map fst datasets) else Ok (map fst datasets)) ;;
  tests <- (if augment then map_res (augment_data true 3) (map snd datasets) else Ok (map snd datasets)) ;;
  trains <- map_res (map_res to_example) trains ;;
  tests <- map_res (map_res to_example) tests ;;
  test_set_len <- min_length tests ;;
  let tests := map (firstn test_set_len) tests in
  if same_lengths trains && same_lengths tests then Ok (trains, tests) else Raise ValueError).
Lemma side_succeeds (augment : bool) ls : Forall (Forall (usable augment)) ls ->
  exists aug es, (if augment then map_res (augment_data true 3) ls else Ok ls) = Ok aug /\ map_res (map_res to_example) aug = Ok es /\ length es = length ls /\
    forall i l e, nth_error ls i = Some l -> nth_error es i = Some e -> length e = ((if augment then 6 else 1) * length l)%nat.
Proof.
  induction 1 as [|l ls U _ (aug & es & E1 & E2 & L & N)].
  - exists [], []. destruct augment; repeat split; intros i l e H; destruct i; discriminate.
  - destruct augment.
    + assert (P : Forall (proper 3) l) by (apply Forall_forall; intros d Hd; rewrite Forall_forall in U; apply (U d Hd); auto).
      destruct (augment_copies l P) as (refs & out & _ & Eo & Lo & _). destruct (examples_succeed out (copies_usable _ _ Eo U)) as (e & Ee).
      exists (out :: aug), (e :: es). split; [apply map_res_Ok; constructor; [auto|apply map_res_Ok; auto]|]. split; [apply map_res_Ok; constructor; [auto|apply map_res_Ok; auto]|]. split; [cbn; auto|]. intros i l0 e0 Hl He. destruct i as [|i]; cbn in *; [|eapply N; eauto].
      injection Hl as <-. injection He as <-. apply to_examples in Ee. rewrite <- (Forall2_len _ _ _ Ee). lia.
    + destruct (examples_succeed l) as (e & Ee); [apply Forall_forall; intros d Hd; rewrite Forall_forall in U; apply (U d Hd)|].
      injection E1 as <-. exists (l :: ls), (e :: es). split; [auto|]. split; [apply map_res_Ok; constructor; [auto|apply map_res_Ok; auto]|]. split; [cbn; auto|]. intros i l0 e0 Hl He. destruct i as [|i]; cbn in *; [|specialize (N i l0 e0 Hl He); lia].
      injection Hl as <-. injection He as <-. apply to_examples in Ee. rewrite <- (Forall2_len _ _ _ Ee). lia.
Qed.
Lemma finish_succeeds augment ds m : ds <> [] -> Forall (fun pr => Forall (usable augment) (fst pr) /\ Forall (usable augment) (snd pr) /\ length (fst pr) = m) ds ->
  exists out, finish augment ds = Ok out.
Proof.
  intros N F. unfold finish.
  destruct (side_succeeds augment (map fst ds)) as (a1 & e1 & -> & E1 & L1 & N1); [apply Forall_forall; intros l Hl; apply in_map_iff in Hl; destruct Hl as (pr & <- & Hp); rewrite Forall_forall in F; apply (F pr Hp)|].
  destruct (side_succeeds augment (map snd ds)) as (a2 & e2 & -> & E2 & L2 & N2); [apply Forall_forall; intros l Hl; apply in_map_iff in Hl; destruct Hl as (pr & <- & Hp); rewrite Forall_forall in F; apply (F pr Hp)|].
  cbn [bind]. rewrite E1, E2. cbn [bind]. destruct (min_length e2) as [n|e|] eqn:En.
  2,3: exfalso; rewrite map_length in L2; destruct e2; cbn in *; [destruct ds; [congruence|discriminate]|discriminate].
  cbn [bind]. destruct (min_length_le _ _ En) as [M _].
  assert (S1 : same_lengths e1 = true).
  { apply same_lengths_true. assert (Q : forall x, In x e1 -> length x = ((if augment then 6 else 1) * m)%nat).
    { intros x Hx. apply In_nth_error in Hx. destruct Hx as (i & Hi). destruct (nth_error ds i) as [pr|] eqn:Ep.
      - rewrite (N1 i (fst pr) x); auto; [|rewrite nth_error_map, Ep; auto]. apply nth_error_In in Ep. rewrite Forall_forall in F. destruct (F pr Ep) as (_ & _ & ->). auto.
      - apply nth_error_None in Ep. apply nth_error_lt in Hi. rewrite map_length in L1. lia. }
    intros x y Hx Hy. rewrite (Q x Hx), (Q y Hy). auto. }
  assert (S2 : same_lengths (map (firstn n) e2) = true).
  { apply same_lengths_true. assert (Q : forall x, In x (map (firstn n) e2) -> length x = n).
    { intros x Hx. apply in_map_iff in Hx. destruct Hx as (y & <- & Hy). rewrite firstn_length. specialize (M y Hy). lia. }
    intros x y Hx Hy. rewrite (Q x Hx), (Q y Hy). auto. }
  rewrite S1, S2. cbn. eauto.
Qed.
Lemma rows_usable augment data places l : Forall (usable augment) data -> rows_of data places l -> Forall (usable augment) l.
Proof. intros U. induction 1 as [|i x p l E _ IH]; constructor; auto. apply nth_error_In in E. rewrite Forall_forall in U. auto. Qed.

(** C91: rows that can be examples always can be split; a bootstrap can unless it draws every row *)
Theorem dataset_splits_succeed data num key bootstrap augment fraction :
  (0 < num)%nat -> Forall (usable augment) data -> 0 <= fraction < 1 ->
  (bootstrap = true -> forall k, In k (split key num) -> exists i, (i < length data)%nat /\ ~ In i (dr_bootstrap _ dr k (length data))) ->
  exists trains tests, create_dataset_splits K split dr data num key bootstrap augment fraction = Ok (trains, tests).
Proof.
  intros Hn U Hf Hb. assert (Nk : split key num <> []) by (intros E; pose proof (splits key num) as L; rewrite E in L; cbn in L; lia).
  assert (Nc : existsb (fun d => match d_context d with None => true | Some _ => false end) data = false).
  { apply not_true_is_false. intros E. apply existsb_exists in E. destruct E as (d & Hd & E). rewrite Forall_forall in U. destruct (U d Hd) as [C _]. destruct (d_context d); [discriminate|congruence]. }
  unfold create_dataset_splits. rewrite Nc.
  match goal with |- exists _ _, bind ?x _ = _ => assert (Q : exists ds m, x = Ok ds /\ ds <> [] /\ Forall (fun pr => Forall (usable augment) (fst pr) /\ Forall (usable augment) (snd pr) /\ length (fst pr) = m) ds) end.
  { destruct bootstrap.
    - specialize (Hb eq_refl). revert Nk Hb. generalize (split key num). intros ks Nk Hb.
      assert (Q : exists ds, map_res (fun k => bootstrap_dataset (dr_bootstrap _ dr k (length data)) (dr_set_order _ dr) data) ks = Ok ds).
      { clear Nk. induction ks as [|k ks IH]; [exists []; auto|]. destruct IH as (ds & E); [intros; apply Hb; right; auto|]. destruct (dr_boot k (length data)) as [L F].
        destruct (proj2 (bootstrap_raises _ _ data dr_set L F) (Hb k (or_introl eq_refl))) as (pr & Ep). exists (pr :: ds). cbn. rewrite Ep. cbn. rewrite E. auto. }
      destruct Q as (ds & E). exists ds, (length data). split; [auto|]. apply map_res_Ok in E. split; [destruct ks; [congruence|]; inversion E; discriminate|].
      clear - E dr_boot dr_set U. induction E as [|k [tr te] l l' E _ IH]; constructor; auto. cbn. destruct (dr_boot k (length data)) as [L F].
      destruct (bootstrap_parts _ _ _ _ _ dr_set L F E) as (A & B & tp & C & _). repeat split; auto; eapply rows_usable; eauto.
    - destruct (Rltb fraction 1 && Rltb 0 fraction) eqn:Ef.
      + revert Nk. generalize (split key num). intros ks Nk. assert (Q : exists ds, map_res (fun k => split_dataset (dr_choice _ dr k (length data)) fraction data) ks = Ok ds).
        { clear Nk. induction ks as [|k ks (ds & E)]; [exists []; auto|]. destruct (split_partition _ fraction data (dr_perm k (length data))) as (tr & te & p1 & p2 & E' & _). exists ((tr, te) :: ds). cbn. rewrite E'. cbn. rewrite E. auto. }
        destruct Q as (ds & E). exists ds, (length data - slice_at (seq 0 (length data)) (trunc (f64 (INR (length data) * fraction))))%nat. split; [auto|]. apply map_res_Ok in E. split; [destruct ks; [congruence|]; inversion E; discriminate|].
        clear - E dr_perm U. induction E as [|k [tr te] l l' E _ IH]; constructor; auto. cbn.
        destruct (split_partition _ fraction data (dr_perm k (length data))) as (tr' & te' & p1 & p2 & E' & Ei & R1 & R2 & _). rewrite E' in E. injection E as <- <-.
        split; [eapply rows_usable; eauto|]. split; [eapply rows_usable; eauto|].
        unfold split_dataset in E'. match type of E' with bind (rows_at _ (skipn ?s _)) _ = _ => set (sl := s) in E' end.
        destruct (rows_at_rows data (skipn sl (dr_choice _ dr k (length data)))) as (t & Et & Rt).
        { apply Forall_forall. intros i Hi. assert (In i (dr_choice _ dr k (length data))) by (rewrite <- (firstn_skipn sl); apply in_or_app; auto). apply (Permutation_in _ (dr_perm _ _)) in H. apply in_seq in H. lia. }
        rewrite Et in E'. cbn [bind] in E'. destruct (rows_at data (firstn sl _)); cbn in E'; try discriminate. injection E' as <- _. rewrite (rows_of_length _ _ _ Rt), skipn_length.
        assert (Lp : length (dr_choice _ dr k (length data)) = length data) by (rewrite (Permutation_length (dr_perm _ _)), seq_length; auto).
        rewrite Lp. f_equal. unfold sl, slice_at. rewrite Lp, seq_length. auto.
      + assert (fraction = 0) as -> by (apply andb_false_iff in Ef; destruct Ef as [Ef|Ef]; apply Rltb_false in Ef; lra).
        unfold Reqb. destruct (Req_EM_T 0 0); [|congruence]. exists (repeat (data, data) num), (length data). split; auto. split; [destruct num; [lia|discriminate]|].
        apply Forall_forall. intros pr Hpr. apply repeat_spec in Hpr. subst. cbn. auto. }
  destruct Q as (ds & m & -> & Nd & Fd). cbn [bind]. destruct (finish_succeeds augment ds m Nd Fd) as ([trains tests] & E). exists trains, tests. exact E.
Qed.

(** C91: what is refused *)
Theorem dataset_splits_raise data num key augment fraction :
  (fraction < 0 \/ 1 <= fraction -> create_dataset_splits K split dr data num key false augment fraction = Raise AssertionError) /\
  (forall bootstrap, 0 <= fraction < 1 -> create_dataset_splits K split dr data 0 key bootstrap augment fraction = Raise ValueError) /\
  (forall bootstrap, (0 < num)%nat -> bootstrap = true \/ 0 < fraction < 1 -> (exists d, In d data /\ d_context d = None) ->
     create_dataset_splits K split dr data num key bootstrap augment fraction = Raise TypeError).
Proof.
  split; [|split].
  - intros H. unfold create_dataset_splits. replace (Rltb fraction 1 && Rltb 0 fraction) with false.
    + replace (Reqb fraction 0) with false; auto. unfold Reqb. destruct (Req_EM_T fraction 0); auto. lra.
    + symmetry. apply andb_false_iff. rewrite !Rltb_false. lra.
  - intros bootstrap H. unfold create_dataset_splits. pose proof (splits key 0) as L. apply length_zero_iff_nil in L. rewrite L.
    assert (Q : forall x, x = Ok (@nil (list datapoint * list datapoint)) -> bind x (finish augment) = Raise ValueError) by (intros x ->; destruct augment; auto).
    apply Q. destruct bootstrap; [destruct (existsb _ data); auto|]. destruct (Rltb fraction 1 && Rltb 0 fraction) eqn:Ef; [destruct (existsb _ data); auto|].
    assert (fraction = 0) as -> by (apply andb_false_iff in Ef; destruct Ef as [Ef|Ef]; apply Rltb_false in Ef; lra). unfold Reqb. destruct (Req_EM_T 0 0); [auto|congruence].
  - intros bootstrap Hn H (d & Hd & Hc). unfold create_dataset_splits.
    replace (existsb (fun d => match d_context d with None => true | Some _ => false end) data) with true by (symmetry; apply existsb_exists; exists d; rewrite Hc; auto).
    destruct num as [|num]; [lia|]. destruct bootstrap; auto. destruct H as [H|H]; [discriminate|].
    replace (Rltb fraction 1 && Rltb 0 fraction) with true; auto. symmetry. apply andb_true_iff. rewrite !Rltb_true. lra.
Qed.

(** C91: with nothing held out, rows without conditions are noticed only when
    the sizes of the datasets are compared *)
Theorem dataset_splits_no_context data num key : (0 < num)%nat -> (exists d, In d data /\ d_context d = None) ->
  create_dataset_splits K split dr data num key false false 0 = Raise AttributeError.
Proof.
  intros Hn (d & Hd & Hc). unfold create_dataset_splits.
  replace (Rltb 0 1 && Rltb 0 0) with false by (symmetry; apply andb_false_iff; right; apply Rltb_false; lra).
  replace (Reqb 0 0) with true by (unfold Reqb; destruct (Req_EM_T 0 0); [auto|congruence]).
  cbn [bind]. assert (Q : map_res to_example data = Raise AttributeError).
  { clear Hn. induction data as [|d' data IH]; [destruct Hd|]. cbn [map_res]. destruct Hd as [->|Hd].
    - unfold to_example at 1. rewrite Hc. reflexivity.
    - unfold to_example at 1. destruct (d_context d'); [|reflexivity]. cbn [bind]. rewrite (IH Hd). reflexivity. }
  destruct num as [|num]; [lia|]. cbn [repeat map map_res fst]. rewrite Q. reflexivity.
Qed.
End Splits.
Print Assumptions dataset_splits.
Print Assumptions dataset_splits_no_context.
Print Assumptions dataset_splits_succeed.
Print Assumptions dataset_splits_raise.

(** C91: two rows, of which only the first is ever drawn *)
Definition ex_draws : draws unit := mkdraws unit (fun _ n => repeat 0%nat n) (fun _ n => seq 0 n) (fun l => l).
Definition ex_rows : list datapoint :=
  [mkdatapoint 1 2 [1; 2; 3] (mkpt 1 0) (Some [1; 5]); mkdatapoint 0 2 [3; 2; 1] (mkpt 0 1) (Some [2; 5])].
Example dataset_nonvacuous : Forall (usable true) ex_rows /\
  (forall (k : unit) n, length (repeat k n) = n) /\
  (forall k n, (0 < n)%nat -> length (dr_bootstrap _ ex_draws k n) = n /\ Forall (fun i => (i < n)%nat) (dr_bootstrap _ ex_draws k n)) /\
  (forall k, exists i, (i < length ex_rows)%nat /\ ~ In i (dr_bootstrap _ ex_draws k (length ex_rows))).
Proof.
  split; [|split; [|split]].
  - repeat constructor; cbn; try discriminate; intros _; repeat split; cbn; try reflexivity; try lia.
  - intros. apply repeat_length.
  - intros k n Hn. cbn. split; [apply repeat_length|]. apply Forall_forall. intros i Hi. apply repeat_spec in Hi. lia.
  - intros k. exists 1%nat. cbn. intuition lia.
Qed.
