(** C68: the filtering aligner over its life. *)
From Coq Require Import Reals ZArith List Bool Lia Lra Arith Permutation.
From Verif Require Import Base.Prelude Base.Random Model.Geometry Model.Alignment
  Spec.Aligning Spec.Merging Spec.Clumps Spec.Colouring Spec.AlignSession
  Proofs.BaseFacts Proofs.RateFacts Proofs.AlignFacts Proofs.MergeFacts Proofs.ClumpFacts Proofs.ColouringFacts Proofs.FilterFacts Proofs.ExampleSampler
  Props.ColouringProps Props.AlignProps Props.MergeProps Props.ClumpProps.
Import ListNotations.
Open Scope R_scope.

Section Filter.
Context {G : Type}.
Variable s : sampler G.
Variable asort : argsort_fn.
Hypothesis Ha : argsort_ok asort.
Variable find : cliques_fn.
Hypothesis Hf : cliques_ok find.
Variable kmeans : list (list R) -> G -> (list R -> Z) * G.
Hypothesis Hk : forall rows g row, fst (kmeans rows g) row = 0%Z \/ fst (kmeans rows g) row = 1%Z.
Variable fp : filter_params.

Notation filter_call := (filter_call s asort find kmeans fp).
Notation session := (session s asort find kmeans fp).
Notation do_op := (do_op s asort find kmeans fp).

(** C68: the first observation after a reset is returned as it is, with zero
    drift, and kept (the caller's array itself); four atoms are needed *)
Theorem first_observation o h g ps r st h' g' : array h (gf_positions o) = points ps ->
  filter_call o filter_reset h g = (r, st, h', g') ->
  h' = h /\ fs_observations st = [gf_positions o] /\
  ((4 <= length ps)%nat -> r = Ok (o, Some pzero) /\
     exists labels, fs_classes st = [labels] /\ length labels = length ps /\ zero_one labels) /\
  (length ps = 2%nat -> r = Raise AssertionError) /\
  ((length ps < 2)%nat \/ length ps = 3%nat -> r = Raise ValueError).
Proof.
  intros Ep E. unfold filter_call in E. cbn [filter_reset fs_observations] in E.
  pose proof E as E'. apply (filter_first_cases asort Ha kmeans Hk) in E' as (-> & Eo & _ & _ & Cases).
  split; auto. split; auto. unfold filter_first in E. rewrite Ep in E.
  replace (finite_rows (points ps)) with (Some ps) in E by (symmetry; apply finite_rows_iff; reflexivity).
  destruct (get_lattice_clusterer_spec asort Ha kmeans ps g) as [A B].
  destruct (le_lt_dec 2 (length ps)) as [H2|H2].
  2:{ rewrite A in E by auto. injection E as <- <- <-. split; [lia|]. split; [lia|auto]. }
  destruct (B H2) as (rows & _ & Eq). rewrite Eq in E. clear A B Eq. set (c := mkclusterer _ _) in E.
  assert (Lc : labels_zero_one c) by (intros row; apply Hk).
  destruct (classify_lattice_types_spec asort Ha ps c) as (A & B & C).
  destruct (Nat.eq_dec (length ps) 2) as [E2|N2].
  { unfold points in E. rewrite A in E by lia. injection E as <- <- <-. split; [lia|]. split; [auto|lia]. }
  destruct (Nat.eq_dec (length ps) 3) as [E3|N3].
  { unfold points in E. rewrite B in E by (unfold c; cbn [km_length]; lia). injection E as <- <- <-. split; [lia|]. split; [lia|auto]. }
  split; [|lia]. intros _. destruct (C ltac:(lia) ltac:(unfold c; cbn [km_length]; lia) Lc) as (labels & final & bound & _ & Ec & Lf & Zf & _).
  unfold points in E. rewrite Ec in E. injection E as <- <- <-. split; auto. exists final. cbn. auto.
Qed.
(** NaNs are refused *)
Theorem first_observation_nan o h g : In None (array h (gf_positions o)) ->
  fst (fst (fst (filter_call o filter_reset h g))) = Raise ValueError.
Proof.
  intros N. unfold filter_call. cbn [filter_reset fs_observations]. unfold filter_first.
  destruct (finite_rows (array h (gf_positions o))) as [ps|] eqn:E; [|reflexivity]. exfalso.
  apply finite_rows_iff in E. rewrite E in N. apply in_map_iff in N as (p & Q & _). discriminate.
Qed.

(** * C68: the history *)

(** nothing is left to chance: the history is in order, or stuck *)
Definition valid (st : filter_state) (h : heap) : Prop := Forall (fun r => (r < length h)%nat) (fs_observations st).
Definition healthy (w : @world G) : Prop :=
  let '(st, h, g) := w in
  (forall c, fs_classifier st = Some c -> labels_zero_one c) /\
  (in_order (fp_history_length fp) st h \/
   ((length (fs_observations st) <= S (Nat.max 1 (fp_history_length fp)))%nat /\ fs_observations st <> [] /\
    (fs_classes st = [] \/
     (valid st h /\ length (concat (fs_classes st)) <> length (flat_map (array h) (fs_observations st)))))).

Lemma in_order_valid n st h : in_order n st h -> valid st h.
Proof.
  intros [_ F]. unfold valid. induction F as [|r l rs ls (L & L3 & _) F IH]; constructor; auto.
  destruct (le_lt_dec (length h) r) as [H|H]; auto. unfold array in L. rewrite nth_overflow in L by auto. cbn in L. lia.
Qed.
Lemma in_order_total n st h : in_order n st h -> length (concat (fs_classes st)) = length (flat_map (array h) (fs_observations st)).
Proof.
  intros [_ F]. induction F as [|r l rs ls (L & L3 & _) F IH]; cbn; auto. rewrite !app_length. lia.
Qed.
Lemma lengths_total refs h h' : same_lengths h h' -> Forall (fun r => (r < length h)%nat) refs ->
  length (flat_map (array h') refs) = length (flat_map (array h) refs).
Proof. intros [_ K] F. induction F; cbn; auto. rewrite !app_length, K by auto. lia. Qed.
Lemma in_order_lengths n st h h' : same_lengths h h' -> in_order n st h -> in_order n st h'.
Proof.
  intros [Kl K] H. pose proof (in_order_valid _ _ _ H) as V. destruct H as [A F]. split; auto. clear A. unfold valid in V.
  induction F as [|r l rs ls (L & L3 & Z01) F IH]; constructor; inversion V as [|? ? V1 V2]; subst.
  - rewrite K by auto. auto.
  - apply IH; auto.
Qed.
Lemma healthy_lengths st h h' g g' : same_lengths h h' -> healthy (st, h, g) -> healthy (st, h', g').
Proof.
  intros K [A B]. split; auto. destruct B as [B|(B1 & B2 & B3)]; [left; eapply in_order_lengths; eauto|right]. split; auto. split; auto.
  destruct B3 as [B3|[V B3]]; auto. right. split.
  - unfold valid in *. eapply Forall_impl; [|exact V]. cbn. destruct K. intros; lia.
  - rewrite (lengths_total _ _ _ K V). auto.
Qed.
Lemma Forall2_skipn {A B} (P : A -> B -> Prop) k l l' : Forall2 P l l' -> Forall2 P (skipn k l) (skipn k l').
Proof. intros H; revert k; induction H; intros [|k]; cbn; auto. Qed.
Lemma Forall2_snoc {A B} (P : A -> B -> Prop) l l' x y : Forall2 P l l' -> P x y -> Forall2 P (l ++ [x]) (l' ++ [y]).
Proof. induction 1; cbn; auto. Qed.

Lemma call_healthy o st h g r st' h' g' : (1 <= fp_alignment_iterations fp)%nat ->
  healthy (st, h, g) -> filter_call o st h g = (r, st', h', g') -> healthy (st', h', g').
Proof.
  intros Hn [Hc Hs] E. unfold filter_call in E. destruct (fs_observations st) as [|r0 rs] eqn:Eo.
  - apply (filter_first_cases asort Ha kmeans Hk) in E as (-> & Eo' & _ & Hc' & Cases).
    assert (Ecl : fs_classes st = []).
    { destruct Hs as [[_ F]|(_ & N & _)]; [|congruence]. rewrite Eo in F. inversion F; auto. }
    rewrite Ecl in Cases. split.
    { intros c E. destruct (Hc' c E) as [|E2]; auto. }
    destruct Cases as [(e & _ & E2)|(labels & c & _ & E2 & L & L3 & Z01 & _)].
    + right. rewrite Eo', E2. split; [cbn [length]; lia|]. split; [discriminate|auto].
    + left. unfold in_order. rewrite Eo', E2. split; [cbn [length]; lia|]. constructor; auto.
  - rewrite <- Eo in Hs. assert (No : fs_observations st <> []) by congruence.
    apply (filter_later_cases s asort Ha find Hf fp) in E; auto. 
    destruct E as (Ecf & K & _ & Cases).
    assert (Hc' : forall c, fs_classifier st' = Some c -> labels_zero_one c) by (intros c E; apply Hc; congruence).
    destruct Cases as [[Est _]|(Ncl & Tot & Cases)].
    { subst st'. apply (healthy_lengths st h h' g g' K). split; [exact Hc|]. exact Hs. }
    specialize (Tot ltac:(lia)).
    assert (Ord : in_order (fp_history_length fp) st h).
    { destruct Hs as [Hs|(_ & _ & [Hs|[_ Hs]])]; [auto|congruence|congruence]. }
    pose proof (in_order_lengths _ _ _ _ K Ord) as Ord'. split; auto.
    destruct Cases as [(kept & e & _ & _ & Eo' & Ec' & Nk)|(kept & labels & cut & Ecut & Eo' & Ec' & L & L3 & Z01 & _)].
    + right. rewrite Eo', Ec'. destruct Ord' as [Lo' Fo'].
      assert (Vk : (kept < length h')%nat).
      { destruct (le_lt_dec (length h') kept); auto. exfalso. apply Nk. unfold array. apply nth_overflow; auto. }
      split; [rewrite app_length; cbn [length]; lia|]. split; [intros Q; apply app_eq_nil in Q as [_ Q]; discriminate|].
      right. split.
      * unfold valid. rewrite Eo'. apply Forall_app. split; [|repeat constructor; auto]. apply (in_order_valid (fp_history_length fp)). split; auto.
      * rewrite flat_map_app, app_length. cbn. rewrite app_nil_r.
        assert (Q : length (concat (fs_classes st)) = length (flat_map (array h') (fs_observations st))) by (apply (in_order_total (fp_history_length fp)); split; auto).
        destruct (array h' kept); [congruence|cbn; lia].
    + left. destruct Ord' as [Lo' Fo']. split.
      * rewrite Eo', skipn_length, app_length. cbn [length]. lia.
      * rewrite Eo', Ec'. apply Forall2_skipn, Forall2_snoc; auto.
Qed.
Lemma alloc_all_spec : forall arrays h rs h', alloc_all arrays h = (rs, h') ->
  h' = h ++ arrays /\ rs = seq (length h) (length arrays).
Proof.
  induction arrays as [|a arrays IH]; intros h rs h'; cbn [alloc_all].
  - intros E. injection E as <- <-. rewrite app_nil_r. auto.
  - unfold alloc. destruct (alloc_all arrays (h ++ [a])) as [rs1 h1] eqn:E1. apply IH in E1 as [-> ->].
    intros E. injection E as <- <-. rewrite <- app_assoc. split; auto. cbn. f_equal. rewrite app_length. cbn. f_equal. lia.
Qed.
(** shifting the history: every observation is replaced by a moved copy; the
    arrays themselves stay *)
Theorem apply_shift_spec v st h st' h' : filter_apply_shift v st h = (st', h') ->
  fs_classes st' = fs_classes st /\ fs_classifier st' = fs_classifier st /\
  (forall r, (r < length h)%nat -> array h' r = array h r) /\
  Forall2 (fun r r' => (length h <= r' < length h')%nat /\ array h' r' = map (fun p => match p with Some p => Some (padd p v) | None => None end) (array h r))
    (fs_observations st) (fs_observations st').
Proof.
  unfold filter_apply_shift. destruct (alloc_all _ h) as [rs h1] eqn:E1. apply alloc_all_spec in E1 as [-> ->].
  intros E. injection E as <- <-. cbn. split; auto. split; auto. split.
  { intros r Hr. unfold array. apply app_nth1; auto. }
  rewrite map_length.
  assert (Q : forall refs pre, Forall2 (fun r r' => (length h <= r' < length h + length (pre ++ refs))%nat /\
     array (h ++ map (fun r => shift_array (array h r) v) (pre ++ refs)) r' = map (fun p => match p with Some p => Some (padd p v) | None => None end) (array h r))
     refs (seq (length h + length pre) (length refs))).
  { induction refs as [|r refs IH]; intros pre; cbn [length seq]; constructor.
    - split; [rewrite app_length; cbn; lia|]. unfold array at 1. rewrite app_nth2 by lia. replace (length h + length pre - length h)%nat with (length pre) by lia.
      rewrite map_app. rewrite app_nth2 by (rewrite map_length; auto). rewrite map_length, Nat.sub_diag. reflexivity.
    - specialize (IH (pre ++ [r])). rewrite <- app_assoc in IH. cbn [app] in IH.
      replace (length h + length (pre ++ [r]))%nat with (S (length h + length pre)) in IH by (rewrite app_length; cbn [length]; lia). exact IH. }
  specialize (Q (fs_observations st) []). cbn in Q. rewrite Nat.add_0_r in Q. rewrite app_length, map_length. exact Q.
Qed.
Lemma shift_healthy v st h g st' h' : healthy (st, h, g) -> filter_apply_shift v st h = (st', h') -> healthy (st', h', g).
Proof.
  intros [Hc Hs] E. apply apply_shift_spec in E as (E1 & E2 & _ & F).
  assert (Lo : length (fs_observations st') = length (fs_observations st)) by (symmetry; eapply Forall2_len; eauto).
  assert (La : Forall2 (fun r r' => length (array h' r') = length (array h r)) (fs_observations st) (fs_observations st')).
  { clear -F. induction F as [|r r' l l' [_ E] F IH]; constructor; auto. rewrite E. apply map_length. }
  assert (Lt : length (flat_map (array h') (fs_observations st')) = length (flat_map (array h) (fs_observations st))).
  { clear -La. induction La; cbn; auto. rewrite !app_length. lia. }
  split; [intros c E; apply Hc; congruence|].
  destruct Hs as [[A B]|(A & B & C)].
  - left. unfold in_order. rewrite Lo, E1. split; auto. clear -La B. revert B. generalize (fs_classes st).
    induction La as [|r r' l l' E F IH]; intros cls B; inversion B; subst; constructor; auto. rewrite E. auto.
  - right. rewrite Lo, E1, Lt. split; auto. split; [intros Q; rewrite Q in Lo; destruct (fs_observations st); [congruence|discriminate]|].
    destruct C as [C|[V C]]; auto. right. split; auto. unfold valid.
    clear -F. induction F as [|r r' l l' [? _] F IH]; constructor; auto. lia.
Qed.
Lemma op_healthy op w rs w' : (1 <= fp_alignment_iterations fp)%nat -> healthy w -> do_op op w = (rs, w') -> healthy w'.
Proof.
  intros Hn Hw E. destruct w as [[st h] g]. destruct op as [|v|a|o]; cbn in E.
  - injection E as <- <-. split; [discriminate|]. left. split; [cbn [fst snd filter_reset fs_observations length]; lia|constructor].
  - destruct (filter_apply_shift v st h) as [st1 h1] eqn:E1. injection E as <- <-. eapply shift_healthy; eauto.
  - injection E as <- <-. eapply healthy_lengths; [apply same_lengths_alloc|exact Hw].
  - destruct (filter_call o st h g) as [[[r st1] h1] g1] eqn:E1. injection E as <- <-. eapply call_healthy; eauto.
Qed.
Lemma session_healthy ops : (1 <= fp_alignment_iterations fp)%nat -> forall w rs w', healthy w -> session ops w = (rs, w') -> healthy w'.
Proof.
  intros Hn. induction ops as [|op ops IH]; intros w rs w' Hw; cbn [AlignSession.session].
  - intros E. injection E as <- <-. auto.
  - destruct (do_op op w) as [rs1 w1] eqn:E1. destruct (session ops w1) as [rs2 w2] eqn:E2.
    intros E. injection E as <- <-. eapply IH; [|exact E2]. eapply op_healthy; eauto.
Qed.

(** whatever happens, the history is bounded: in order, at most history_length
    observations (one, if that is 0); out of order, at most one more *)
Theorem history_bounded ops h g rs st h' g' : (1 <= fp_alignment_iterations fp)%nat ->
  session ops (filter_reset, h, g) = (rs, (st, h', g')) ->
  in_order (fp_history_length fp) st h' \/
  (out_of_order st h' /\ (length (fs_observations st) <= S (Nat.max 1 (fp_history_length fp)))%nat).
Proof.
  intros Hn E. apply session_healthy in E as [_ Hs]; auto.
  - destruct Hs as [Hs|(A & B & C)]; auto. right. split; auto. split; auto. destruct C as [C|[_ C]]; auto.
  - split; [discriminate|]. left. split; [cbn [fst snd filter_reset fs_observations length]; lia|constructor].
Qed.

(** it is in order if no observation raised *)
Theorem history_in_order ops h g rs st h' g' : (1 <= fp_alignment_iterations fp)%nat ->
  session ops (filter_reset, h, g) = (rs, (st, h', g')) -> (forall e, ~ In (Raise e) rs) ->
  in_order (fp_history_length fp) st h'.
Proof.
  intros Hn.
  assert (Q : forall ops w rs w', healthy w -> in_order (fp_history_length fp) (fst (fst w)) (snd (fst w)) ->
     session ops w = (rs, w') -> (forall e, ~ In (Raise e) rs) -> in_order (fp_history_length fp) (fst (fst w')) (snd (fst w'))).
  { clear ops h g rs st h' g'. induction ops as [|op ops IH]; intros w rs w' Hw Ho; cbn [AlignSession.session].
    - intros E _. injection E as <- <-. auto.
    - destruct (do_op op w) as [rs1 w1] eqn:E1. destruct (session ops w1) as [rs2 w2] eqn:E2.
      intros E Nr. injection E as <- <-. eapply IH; [eapply op_healthy; eauto| |exact E2|intros e Q; apply (Nr e); apply in_or_app; auto].
      pose proof (op_healthy _ _ _ _ Hn Hw E1) as Hw1.
      destruct w as [[st h] g]. destruct op as [|v|a|o]; cbn in E1, Ho.
      + injection E1 as <- <-. split; [cbn [fst snd filter_reset fs_observations length]; lia|constructor].
      + destruct (filter_apply_shift v st h) as [st1 h1] eqn:Es. injection E1 as <- <-. cbn.
        destruct Hw1 as [_ [Q|(_ & N & Q)]]; [exact Q|]. exfalso.
        apply apply_shift_spec in Es as (E1 & _ & _ & F).
        destruct Q as [Q|[_ Q]].
        * rewrite E1 in Q. destruct Ho as [_ Fo]. rewrite Q in Fo. inversion Fo as [Eo|]. rewrite <- Eo in F. inversion F. congruence.
        * apply Q. rewrite E1, (in_order_total _ _ _ Ho). clear -F. induction F as [|r r' l l' [_ E] F IH]; cbn; auto.
          rewrite !app_length, E, map_length, IH. reflexivity.
      + injection E1 as <- <-. cbn. eapply in_order_lengths; [apply same_lengths_alloc|exact Ho].
      + destruct (filter_call o st h g) as [[[r st1] h1] g1] eqn:Ec. injection E1 as <- <-. cbn.
        assert (Nr' : forall e, r <> Raise e) by (intros e Q; apply (Nr e); left; auto).
        destruct Hw as [Hc _]. unfold filter_call in Ec. destruct (fs_observations st) as [|r0 rs0] eqn:Eo.
        * apply (filter_first_cases asort Ha kmeans Hk) in Ec as (-> & Eo' & _ & _ & Cases).
          destruct Cases as [(e & -> & _)|(labels & c & _ & E2' & L & L3 & Z01 & _)]; [destruct (Nr' e eq_refl)|].
          assert (Ecl : fs_classes st = []) by (destruct Ho as [_ F]; rewrite Eo in F; inversion F; auto).
          unfold in_order. rewrite Eo', E2', Ecl. split; [cbn [length]; lia|]. constructor; auto.
        * apply (filter_later_cases s asort Ha find Hf fp) in Ec; auto; [|congruence].
          destruct Ec as (_ & K & _ & [[_ (e & ->)]|(_ & _ & [(kept & e & -> & _)|(kept & labels & cut & Ecut & Eo' & Ec' & L & L3 & Z01 & _)])]);
            try (destruct (Nr' e eq_refl)).
          pose proof (in_order_lengths _ _ _ _ K Ho) as [Lo' Fo']. split.
          -- rewrite Eo', skipn_length, app_length. cbn [length]. lia.
          -- rewrite Eo', Ec'. apply Forall2_skipn, Forall2_snoc; auto. }
  intros E Nr. apply (Q ops (filter_reset, h, g) rs (st, h', g')); auto.
  - split; [discriminate|]. left. split; [cbn [fst snd filter_reset fs_observations length]; lia|constructor].
  - split; [cbn [fst snd filter_reset fs_observations length]; lia|constructor].
Qed.

(** out of order, every observation raises and changes nothing, until a reset *)
Theorem out_of_order_is_stuck ops h g rs st h' g' rs2 st2 h2 g2 : (1 <= fp_alignment_iterations fp)%nat ->
  session ops (filter_reset, h, g) = (rs, (st, h', g')) -> out_of_order st h' ->
  forall ops2, ~ In op_reset ops2 -> session ops2 (st, h', g') = (rs2, (st2, h2, g2)) ->
  (forall r, In r rs2 -> exists e, r = Raise e) /\
  length (fs_observations st2) = length (fs_observations st) /\ fs_classes st2 = fs_classes st.
Proof.
  intros Hn E Ooo. assert (Hw : healthy (st, h', g')).
  { eapply session_healthy; eauto. split; [discriminate|]. left. split; [cbn [fst snd filter_reset fs_observations length]; lia|constructor]. }
  clear ops E. intros ops. clear rs h g. revert st h' g' rs2 st2 h2 g2 Ooo Hw.
  induction ops as [|op ops IH]; intros st h g rs st2 h2 g2 Ooo Hw Nr; cbn [AlignSession.session].
  { intros E. injection E as <- <- <- <-. split; [intros r []|auto]. }
  destruct (do_op op (st, h, g)) as [rs1 [[st1 h1] g1]] eqn:E1. destruct (session ops (st1, h1, g1)) as [rs3 w3] eqn:E3.
  intros E. injection E as <- ->.
  pose proof (op_healthy _ _ _ _ Hn Hw E1) as Hw1.
  assert (Step : (forall r, In r rs1 -> exists e, r = Raise e) /\ out_of_order st1 h1 /\
     length (fs_observations st1) = length (fs_observations st) /\ fs_classes st1 = fs_classes st).
  { destruct Hw as [Hc Hs]. destruct op as [|v|a|o]; cbn in E1.
    - exfalso. apply Nr. left; auto.
    - destruct (filter_apply_shift v st h) as [st1' h1'] eqn:Es. injection E1 as <- <- <- <-. split; [intros r []|].
      apply apply_shift_spec in Es as (Ec & _ & _ & F).
      assert (Lo : length (fs_observations st1') = length (fs_observations st)) by (symmetry; eapply Forall2_len; eauto).
      split; auto. destruct Ooo as [O1 O2]. split; [intros Q; rewrite Q in Lo; destruct (fs_observations st); [congruence|discriminate]|].
      rewrite Ec. replace (length (flat_map (array h1') (fs_observations st1'))) with (length (flat_map (array h) (fs_observations st))); auto.
      clear -F. induction F as [|r r' l l' [_ E] F IH]; cbn; auto. rewrite !app_length, E, map_length, IH. reflexivity.
    - injection E1 as <- <- <- <-. split; [intros r []|]. split; auto. destruct Ooo as [O1 O2]. split; auto.
      destruct O2 as [O2|O2]; auto. destruct Hs as [Hs|(_ & _ & [Hs|[V Hs]])].
      + exfalso. apply O2. eapply in_order_total; eauto.
      + left; auto.
      + right. rewrite (lengths_total _ _ _ (same_lengths_alloc h a) V). auto.
    - destruct (filter_call o st h g) as [[[r st1'] h1'] g1'] eqn:Ec. injection E1 as <- <- <- <-.
      unfold filter_call in Ec. destruct Ooo as [O1 O2]. destruct (fs_observations st) as [|r0 rs0] eqn:Eo; [congruence|].
      apply (filter_later_cases s asort Ha find Hf fp) in Ec; auto; [|congruence].
      destruct Ec as (_ & K & _ & [[-> (e & ->)]|(Ncl & Tot & _)]).
      + split; [intros r [<-|[]]; eauto|]. rewrite Eo. split; auto. split; [congruence|].
        destruct O2 as [O2|O2]; auto. destruct Hs as [Hs|(_ & _ & [Hs|[V Hs]])].
        * exfalso. apply O2. pose proof (in_order_total _ _ _ Hs) as Q. rewrite Eo in Q. exact Q.
        * left; auto.
        * right. rewrite Eo in *. unfold valid in V. rewrite Eo in V. rewrite (lengths_total _ _ _ K V). auto.
      + exfalso. specialize (Tot ltac:(lia)). rewrite Eo in Tot. destruct O2; congruence. }
  destruct Step as (R1 & O1 & L1 & C1).
  destruct (IH st1 h1 g1 rs3 st2 h2 g2 O1 Hw1 ltac:(intros Q; apply Nr; right; auto) E3) as (R2 & L2 & C2).
  split; [|split; congruence]. intros r Hr. apply in_app_or in Hr as [Hr|Hr]; auto.
Qed.

(** a first observation that raises leaves the aligner stuck *)
Theorem failed_first_observation_sticks o h g e st h' g' :
  filter_call o filter_reset h g = (Raise e, st, h', g') -> out_of_order st h'.
Proof.
  unfold filter_call. cbn [filter_reset fs_observations]. intros E.
  apply (filter_first_cases asort Ha kmeans Hk) in E as (_ & Eo & _ & _ & [(e' & _ & Ec)|(l & c & Q & _)]); [|discriminate].
  split; [congruence|]. left. rewrite Ec. reflexivity.
Qed.
End Filter.
Print Assumptions first_observation.
Print Assumptions first_observation_nan.
Print Assumptions apply_shift_spec.
Print Assumptions history_bounded.
Print Assumptions history_in_order.
Print Assumptions out_of_order_is_stuck.
Print Assumptions failed_first_observation_sticks.

(** four atoms are seen, shifted, and in order; three raise and leave the aligner
    stuck, so that the four raise as well *)
Example aligner_life_nonvacuous :
  let four := points [mkpt 0 0; mkpt 1 0; mkpt 0 1; mkpt (-1) (-1)] in
  let three := points [mkpt 0 0; mkpt 1 0; mkpt 0 1] in
  let km := fun (_ : list (list R)) (g : nat) => (fun _ : list R => 0%Z, g) in
  let o := mkgrid_ref 0 [6; 6; 6; 14]%Z in
  let bad := mkgrid_ref 1 [6; 6; 14]%Z in
  let run ops := session (ex_sampler 1) argsort_stable find_by_search km default_filter_params ops (filter_reset, [four; three], 0%nat) in
  (exists st h g, run [op_observe o; op_shift (mkpt 1 2)] = ([Ok (o, Some pzero)], (st, h, g)) /\ in_order 10 st h /\
     length (fs_observations st) = 1%nat) /\
  (exists st h g e, run [op_observe bad; op_observe o] = ([Raise ValueError; Raise e], (st, h, g))).
Proof.
  intros four three km o bad run.
  assert (Hk : forall rows g row, fst (km rows g) row = 0%Z \/ fst (km rows g) row = 1%Z) by (intros; left; reflexivity).
  split.
  - destruct (run [op_observe o; op_shift (mkpt 1 2)]) as [rs [[st h] g]] eqn:E.
    pose proof (history_in_order (ex_sampler 1) argsort_stable argsort_stable_ok find_by_search find_by_search_ok km Hk default_filter_params
      _ _ _ _ _ _ _ ltac:(cbn; lia) E) as IO.
    unfold run in E. cbn [session do_op] in E.
    destruct (filter_call (ex_sampler 1) argsort_stable find_by_search km default_filter_params o filter_reset [four; three] 0%nat) as [[[r st1] h1] g1] eqn:E1.
    destruct (first_observation (ex_sampler 1) argsort_stable argsort_stable_ok find_by_search km Hk default_filter_params
      o [four; three] 0%nat [mkpt 0 0; mkpt 1 0; mkpt 0 1; mkpt (-1) (-1)] r st1 h1 g1 eq_refl E1) as (-> & EO & H4 & _).
    destruct (H4 (le_n 4)) as (-> & _).
    cbn [do_op] in E. destruct (filter_apply_shift (mkpt 1 2) st1 [four; three]) as [st2 h2] eqn:E2. injection E as <- <- <- <-.
    exists st2, h2, g1. split; auto. split.
    + apply IO. intros e [H|[]]. discriminate.
    + pose proof (apply_shift_spec (mkpt 1 2) _ _ _ _ E2) as (_ & _ & _ & F). rewrite EO in F. inversion F as [|x y l l' _ F' EE EF]; subst. inversion F'; subst. reflexivity.
  - destruct (run [op_observe bad; op_observe o]) as [rs [[st h] g]] eqn:E. unfold run in E. cbn [session do_op] in E.
    destruct (filter_call (ex_sampler 1) argsort_stable find_by_search km default_filter_params bad filter_reset [four; three] 0%nat) as [[[r st1] h1] g1] eqn:E1.
    destruct (first_observation (ex_sampler 1) argsort_stable argsort_stable_ok find_by_search km Hk default_filter_params
      bad [four; three] 0%nat [mkpt 0 0; mkpt 1 0; mkpt 0 1] r st1 h1 g1 eq_refl E1) as (-> & EO & _ & _ & H3).
    rewrite (H3 (or_intror eq_refl)) in *.
    pose proof (failed_first_observation_sticks (ex_sampler 1) argsort_stable argsort_stable_ok find_by_search km Hk default_filter_params
      _ _ _ _ _ _ _ E1) as OO.
    cbn [do_op] in E. destruct (filter_call (ex_sampler 1) argsort_stable find_by_search km default_filter_params o st1 [four; three] g1) as [[[r2 st2] h2] g2] eqn:E2.
    injection E as <- <- <- <-.
    destruct (out_of_order_is_stuck (ex_sampler 1) argsort_stable argsort_stable_ok find_by_search find_by_search_ok km Hk default_filter_params
      [op_observe bad] [four; three] 0%nat [Raise ValueError] st1 [four; three] g1 [r2] st2 h2 g2 ltac:(cbn; lia)
      ltac:(cbn [session do_op]; rewrite E1; reflexivity) OO [op_observe o] ltac:(intros [H|[]]; discriminate)
      ltac:(cbn [session do_op]; rewrite E2; reflexivity)) as (R & _).
    destruct (R r2 (or_introl eq_refl)) as [e ->]. exists st2, h2, g2, e. reflexivity.
Qed.
