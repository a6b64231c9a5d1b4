(** Aligning a new observation with earlier ones (C61, C62). *)
From Coq Require Import Reals ZArith List Bool Lia Lra Arith Permutation.
From Flocq Require Import Core.
From Verif Require Import Base.Prelude Base.Random Model.Alignment Spec.Aligning
  Proofs.BaseFacts Proofs.ExampleSampler Proofs.AlignFacts.
Import ListNotations.
Open Scope R_scope.

(** C61: what a call does, iteration by iteration *)
Theorem align_latest_runs {G} (s : sampler G) asort : argsort_ok asort ->
  forall new ref new_classes ref_classes n noise_scale max_shift limit trim init g d,
  0 <= trim <= 1 ->
  let al := align_latest s asort new (map Some ref) new_classes ref_classes n noise_scale max_shift limit trim init g in
  al_result al = Ok d ->
  exists scales, annealing noise_scale n scales /\
    match init with
    | Some i => iterations s new new_classes ref ref_classes max_shift limit trim scales i true i g d (al_shared al) (al_init al) (al_rng al)
    | None => iterations s new new_classes ref ref_classes max_shift limit trim scales (Some pzero) false None g d (al_shared al) (al_init al) (al_rng al)
    end.
Proof.
  intros K new ref nc rc n ns ms limit trim init g d Ht al E.
  exists (map (noise_scale_at ns n) (seq 0 n)). split; [apply scales_annealing|].
  unfold al, align_latest in *. destruct init as [i|]; eapply loop_iterations; eauto.
Qed.
Print Assumptions align_latest_runs.

(** C61: exactly when a call raises *)
Theorem align_latest_raises {G} (s : sampler G) asort :
  forall new reference new_classes ref_classes n noise_scale max_shift limit trim init g e,
  let al := align_latest s asort new reference new_classes ref_classes n noise_scale max_shift limit trim init g in
  al_result al <> OutOfFuel /\
  (al_result al = Raise e <->
   (0 < n)%nat /\
   ((e = ValueError /\ new_classes = []) \/
    (e = IndexError /\ new_classes <> [] /\ (length new_classes <> length new \/ length ref_classes <> length reference)) \/
    (e = ValueError /\ new_classes <> [] /\ length new_classes = length new /\ length ref_classes = length reference /\
       ~ classes_known new_classes ref_classes))).
Proof.
  intros new reference nc rc n ns ms limit trim init g e al.
  assert (Sc : map (noise_scale_at ns n) (seq 0 n) <> [] <-> (0 < n)%nat).
  { destruct n; cbn; [split; [congruence|lia]|split; [lia|discriminate]]. }
  assert (K : al_result al <> OutOfFuel /\ exists d,
     (al_result al = Raise e <-> map (noise_scale_at ns n) (seq 0 n) <> [] /\ mean_offset asort new reference nc rc limit trim d pzero = Raise e)).
  { unfold al, align_latest. destruct init as [i|].
    - destruct (loop_raise s asort new reference nc rc ms limit trim (map (noise_scale_at ns n) (seq 0 n)) i true i g e) as [A B]. eauto.
    - destruct (loop_raise s asort new reference nc rc ms limit trim (map (noise_scale_at ns n) (seq 0 n)) (Some pzero) false None g e) as [A B]. eauto. }
  destruct K as (A & d & B). split; auto. rewrite B, Sc, mean_offset_raise. reflexivity.
Qed.
Print Assumptions align_latest_raises.

(** C61: the drift is limited *)
Lemma clip_limits max_shift d e b : 0 <= max_shift -> clip_drift max_shift d = (Some e, b) -> pnorm e <= max_shift.
Proof.
  intros Hm. destruct d as [d|]; [|discriminate].
  destruct (clip_drift_spec max_shift d) as [[H E]|[H E]]; rewrite E; intros Q; injection Q as <- _; auto.
  rewrite pnorm_scale. assert (0 < pnorm d) by lra. unfold Rdiv. rewrite Rabs_pos_eq.
  - rewrite Rmult_assoc, Rinv_l; lra.
  - apply Rmult_le_pos; auto. left. apply Rinv_0_lt_compat; auto.
Qed.
Lemma loop_limited {G} (s : sampler G) asort new reference nc rc ms limit trim scales : 0 <= ms ->
  forall d shared init g e, (forall x, d = Some x -> pnorm x <= ms) \/ scales <> [] ->
  al_result (align_loop s asort new reference nc rc ms limit trim scales d shared init g) = Ok (Some e) -> pnorm e <= ms.
Proof.
  intros Hm. induction scales as [|sc scales IH]; intros d shared init g e K E; cbn [align_loop] in E.
  - destruct K as [K|K]; [|congruence]. cbn in E. injection E as ->. auto.
  - destruct (draw_noise s sc g) as [noise g1].
    destruct (mean_offset _ _ _ _ _ _ _ _ _) as [o|x|]; try discriminate.
    destruct (clip_drift ms _) as [d2 fresh] eqn:Ec. eapply IH; [|exact E].
    left. intros x ->. eapply clip_limits; eauto.
Qed.
Theorem align_latest_limited {G} (s : sampler G) asort :
  forall new reference new_classes ref_classes n noise_scale max_shift limit trim init g d,
  (1 <= n)%nat -> 0 <= max_shift ->
  al_result (align_latest s asort new reference new_classes ref_classes n noise_scale max_shift limit trim init g) = Ok (Some d) ->
  pnorm d <= max_shift.
Proof.
  intros new reference nc rc n ns ms limit trim init g d Hn Hm E.
  assert (Nn : map (noise_scale_at ns n) (seq 0 n) <> []) by (destruct n; [lia|discriminate]).
  unfold align_latest in E. destruct init as [i|]; eapply loop_limited; eauto.
Qed.
Print Assumptions align_latest_limited.

(** C61: without iterations the initial shift is returned *)
Theorem align_latest_no_iterations {G} (s : sampler G) asort :
  forall new reference new_classes ref_classes noise_scale max_shift limit trim init g,
  align_latest s asort new reference new_classes ref_classes 0 noise_scale max_shift limit trim init g =
  match init with
  | Some i => mkaligned (Ok i) true i g
  | None => mkaligned (Ok (Some pzero)) false None g
  end.
Proof. intros. destruct init; reflexivity. Qed.
Print Assumptions align_latest_no_iterations.

(** C61: the drift is NaN when every point is too far from its class; NaN is final *)
Lemma iteration_None new nc ref rc ms limit trim noise d1 d2 b :
  iteration new nc ref rc ms limit trim noise None d1 d2 b -> d2 = None.
Proof. cbn. intros (_ & H & _). auto. Qed.
Lemma iterations_None {G} (s : sampler G) new nc ref rc ms limit trim scales d shared init g d' shared' init' g' :
  iterations s new nc ref rc ms limit trim scales d shared init g d' shared' init' g' -> d = None -> d' = None.
Proof.
  induction 1; intros ->; auto. apply IHiterations. eapply iteration_None; eauto.
Qed.
Lemma trimmed_nil trim kept : trimmed trim [] kept -> trim <= 1 -> kept = [].
Proof.
  intros [A B] Ht. destruct (Rle_lt_dec trim 0) as [H|H].
  - apply Permutation_nil. auto.
  - destruct (B (conj H Ht)) as (k & _ & dr & P & _). apply Permutation_nil in P. apply app_eq_nil in P. tauto.
Qed.
Theorem align_latest_lost {G} (s : sampler G) asort : argsort_ok asort ->
  forall new ref new_classes ref_classes n max_shift limit trim d0 g d,
  0 <= trim <= 1 -> (1 <= n)%nat ->
  al_result (align_latest s asort new (map Some ref) new_classes ref_classes n 0 max_shift (Some limit) trim (Some d0) g) = Ok d ->
  (d0 = None \/ forall v p c q, d0 = Some v -> In (p, c) (combine new new_classes) -> In (q, c) (combine ref ref_classes) ->
     limit <= pdist (padd p v) q) ->
  d = None.
Proof.
  intros K new ref nc rc n ms limit trim d0 g d Ht Hn E Far.
  destruct (align_latest_runs s asort K new ref nc rc n 0 ms (Some limit) trim (Some d0) g d Ht E) as (scales & [L An] & Run).
  destruct d0 as [v|]; [|eapply iterations_None; eauto].
  destruct Far as [Far|Far]; [discriminate|].
  inversion Run as [|scale scales' noise ? d1 d2 limited ? ? ? g1 ? ? ? ? Dn It Run']; subst.
  { cbn in Hn. lia. }
  eapply iterations_None; [exact Run'|]. cbn in It. destruct It as (offsets & kept & W & T & It).
  assert (scale = 0).
  { destruct (An 0%nat scale eq_refl) as [A1 A2]. destruct (Nat.eq_dec (length (scale :: scales')) 1); [auto|].
    rewrite A2 by lia. ring. }
  subst scale. destruct Dn as [Dn _]. destruct (Dn eq_refl) as [-> _].
  assert (offsets = []).
  { destruct W as (parts & -> & F). apply concat_nil_Forall.
    assert (Fr : Forall (fun x : pt * Z => forall q, In q (of_class (snd x) ref rc) -> limit <= pdist (padd (fst x) v) q) (combine new nc)).
    { apply Forall_forall. intros [p c] Hp q Hq. cbn in *. apply (Far v p c q eq_refl Hp).
      unfold of_class in Hq. apply in_map_iff in Hq as ((q' & c') & <- & Hf). apply filter_In in Hf as [Hf Hc].
      cbn in Hc. apply Z.eqb_eq in Hc. subst. auto. }
    clear -F Fr. induction F as [|x w l ps Hw F IH]; constructor; [|apply IH; inversion Fr; auto].
    inversion Fr as [|? ? Hx]; subst. destruct Hw as (q & (j & Hj & _) & [[Hin ->]|[_ ->]]); auto.
    exfalso. cbn in Hin. specialize (Hx q (nth_error_In _ _ Hj)).
    replace (padd v pzero) with v in * by (apply pt_eq; cbn; lra). lra. }
  subst offsets. apply trimmed_nil in T; [|lra]. subst kept.
  destruct It as [(_ & _ & -> & _)|[N _]]; [auto|congruence].
Qed.
Print Assumptions align_latest_lost.

(** C61: a drift that is small compared to the distances between reference
    points of one class is found exactly *)
Definition separated (ref : list pt) (ref_classes : list Z) (r : R) : Prop :=
  forall c p q, In p (of_class c ref ref_classes) -> In q (of_class c ref ref_classes) -> p <> q -> 2 * r < pdist p q.
Definition shifted_from (new : list pt) (new_classes : list Z) (ref : list pt) (ref_classes : list Z) (v : pt) : Prop :=
  forall p c, In (p, c) (combine new new_classes) -> In (padd p v) (of_class c ref ref_classes).

Lemma pmean_const l x : l <> [] -> (forall y, In y l -> y = x) -> pmean l = x.
Proof.
  intros N K. assert (S1 : psum l = pscale (INR (length l)) x).
  { clear N. induction l as [|a l IH]; [apply pt_eq; cbn; lra|]. cbn [psum fold_right]. fold (psum l).
    rewrite IH by (intros; apply K; right; auto). rewrite (K a) by (left; auto).
    cbn [length]. rewrite S_INR. apply pt_eq; cbn; lra. }
  unfold pmean. rewrite S1. assert (INR (length l) <> 0) by (apply not_0_INR; destruct l; [congruence|discriminate]).
  apply pt_eq; cbn; field; auto.
Qed.
Lemma trimmed_sub trim offsets kept x : trimmed trim offsets kept -> trim <= 1 -> In x kept -> In x offsets.
Proof.
  intros [A B] Ht Hx. destruct (Rle_lt_dec trim 0) as [H|H].
  - eapply Permutation_in; [apply Permutation_sym; apply A; auto|auto].
  - destruct (B (conj H Ht)) as (k & _ & dr & P & _). eapply Permutation_in; [apply Permutation_sym; exact P|].
    apply in_or_app. auto.
Qed.
Lemma trimmed_some trim offsets kept : trimmed trim offsets kept -> 0 <= trim <= 1 -> 1 <= (1 - trim) * INR (length offsets) -> kept <> [].
Proof.
  intros [A B] Ht Hn ->. destruct (Rle_lt_dec trim 0) as [H|H].
  - specialize (A H). apply Permutation_sym, Permutation_nil in A. subst. cbn in Hn. lra.
  - destruct (B (conj H (proj2 Ht))) as (k & Hk & dr & _ & Lk & _). cbn in Lk. subst k. cbn in Hk. lra.
Qed.

Lemma iteration_finds new nc ref rc ms limit trim d d1 d2 b v :
  length nc = length new ->
  0 <= trim <= 1 -> 1 <= (1 - trim) * INR (length new) ->
  shifted_from new nc ref rc v -> separated ref rc (pdist v d) -> pdist v d < limit -> pnorm v <= ms ->
  iteration new nc ref rc ms (Some limit) trim pzero (Some d) d1 d2 b ->
  d1 = Some v /\ d2 = Some v /\ b = false.
Proof.
  intros Len Ht Hn Sh Sep Lim Hv It. cbn in It. destruct It as (offsets & kept & (parts & -> & F) & T & It).
  replace (padd d pzero) with d in F by (apply pt_eq; cbn; lra).
  assert (Each : forall l parts, Forall2 (fun pc way => way_to (of_class (snd pc) ref rc) (Some limit) (padd (fst pc) d) way) l parts ->
     (forall x, In x l -> In (padd (fst x) v) (of_class (snd x) ref rc)) ->
     concat parts = repeat (psub v d) (length l)).
  { clear -Sep Lim. induction 1 as [|[p c] w l ps Hw F IH]; intros K; auto.
    cbn [concat length repeat]. rewrite IH by (intros; apply K; right; auto).
    destruct Hw as (q & (j & Hj & M & _) & Hw). cbn [fst snd] in *.
    specialize (K (p, c) (or_introl eq_refl)). cbn in K.
    assert (D : pdist (padd p d) (padd p v) = pdist v d).
    { rewrite pdist_sym. unfold pdist. f_equal. apply pt_eq; cbn; lra. }
    assert (q = padd p v).
    { destruct (pt_eq_dec q (padd p v)) as [|Ne]; auto. exfalso.
      assert (S1 := Sep c q (padd p v) (nth_error_In _ _ Hj) K Ne).
      specialize (M _ K). rewrite D in M.
      pose proof (pdist_triangle q (padd p d) (padd p v)) as Tr. rewrite D, (pdist_sym q (padd p d)) in Tr. lra. }
    subst q. rewrite D in Hw. destruct Hw as [[_ ->]|[Hf _]]; [|exfalso; apply Hf; exact Lim].
    cbn [app]. f_equal. apply pt_eq; cbn; lra. }
  specialize (Each _ _ F ltac:(intros [p c] Hx; exact (Sh p c Hx))).
  rewrite combine_length, Len, Nat.min_id in Each. rewrite Each in T.
  assert (Nk : kept <> []). { eapply trimmed_some; eauto. rewrite repeat_length. auto. }
  assert (Pm : pmean kept = psub v d).
  { apply pmean_const; auto. intros y Hy. apply (trimmed_sub _ _ _ _ T) in Hy; [|lra]. apply repeat_spec in Hy. auto. }
  destruct It as [[N _]|(_ & E1 & It)]; [congruence|]. rewrite Pm in *.
  assert (Ev : padd d (padd pzero (psub v d)) = v) by (apply pt_eq; cbn; lra). rewrite Ev in *.
  destruct It as [(_ & -> & ->)|[H _]]; [auto|lra].
Qed.
Lemma iterations_found {G} (s : sampler G) new nc ref rc ms limit trim scales d shared init g d' shared' init' g' v :
  length nc = length new -> 0 <= trim <= 1 -> 1 <= (1 - trim) * INR (length new) ->
  shifted_from new nc ref rc v -> 0 < limit -> pnorm v <= ms -> (forall x, In x scales -> x = 0) ->
  iterations s new nc ref rc ms (Some limit) trim scales d shared init g d' shared' init' g' ->
  d = Some v -> d' = Some v /\ shared' = shared /\ (shared = true -> init = d -> init' = Some v) /\ g' = g.
Proof.
  intros Len Ht Hn Sh Lim Hv Sc It. induction It as [|scale scales noise d d1 d2 limited shared init g g1 d' shared' init' g' Dn It1 It2 IH]; intros ->.
  - auto.
  - assert (scale = 0) by (apply Sc; left; auto). subst scale. destruct Dn as [Dn _]. destruct (Dn eq_refl) as [-> ->].
    assert (X : d1 = Some v /\ d2 = Some v /\ limited = false).
    { eapply iteration_finds; eauto; rewrite ?pdist_self; auto.
      intros c p q _ _ N. pose proof (pdist_pos p q N). lra. }
    destruct X as (-> & -> & ->). destruct IH as (A & B & C & D); [intros; apply Sc; right; auto|auto|].
    split; auto. split; [destruct shared; exact B|]. split; auto. intros -> _. apply C; auto.
Qed.
Theorem align_latest_finds_drift {G} (s : sampler G) asort : argsort_ok asort ->
  forall new ref new_classes ref_classes n max_shift limit trim d0 g v,
  length new_classes = length new -> length ref_classes = length ref ->
  (1 <= n)%nat -> 0 <= trim <= 1 -> 1 <= (1 - trim) * INR (length new) ->
  shifted_from new new_classes ref ref_classes v ->
  separated ref ref_classes (pdist v d0) -> pdist v d0 < limit -> pnorm v <= max_shift ->
  align_latest s asort new (map Some ref) new_classes ref_classes n 0 max_shift (Some limit) trim (Some (Some d0)) g =
  mkaligned (Ok (Some v)) true (Some v) g.
Proof.
  intros K new ref nc rc n ms limit trim d0 g v L1 L2 Hn Ht Hk Sh Sep Lim Hv.
  set (al := align_latest _ _ _ _ _ _ _ _ _ _ _ _ _).
  assert (exists d, al_result al = Ok d) as (d & E).
  { destruct (al_result al) as [d|e|] eqn:E; [eauto| |].
    - exfalso. destruct (align_latest_raises s asort new (map Some ref) nc rc n 0 ms (Some limit) trim (Some (Some d0)) g e) as [_ B].
      apply B in E as [_ [(_ & E)|[(_ & _ & [E|E])|(_ & _ & _ & _ & E)]]].
      + subst nc. cbn in L1. rewrite <- L1 in Hk. cbn in Hk. lra.
      + congruence.
      + rewrite map_length in E. congruence.
      + apply E. intros c Hc. apply In_nth_error in Hc as (i & Hi). pose proof (nth_error_lt _ _ _ Hi) as Li. rewrite L1 in Li.
        assert (Hp : In (nth i new pzero, c) (combine new nc)).
        { apply (nth_error_nth_default _ _ 0%Z) in Hi. rewrite <- Hi.
          rewrite <- combine_nth by auto. apply nth_In. rewrite combine_length. lia. }
        specialize (Sh _ _ Hp). unfold of_class in Sh. apply in_map_iff in Sh as ((q & c') & _ & Hf).
        apply filter_In in Hf as [Hf Hc]. cbn in Hc. apply Z.eqb_eq in Hc. subst. eapply in_combine_r; eauto.
    - exfalso. destruct (align_latest_raises s asort new (map Some ref) nc rc n 0 ms (Some limit) trim (Some (Some d0)) g ValueError) as [A _].
      contradiction. }
  destruct (align_latest_runs s asort K new ref nc rc n 0 ms (Some limit) trim (Some (Some d0)) g d Ht E) as (scales & [Ls An] & Run).
  fold al in Run. clearbody al. destruct al as [r sh ini gg]; cbn in E, Run |- *. subst r.
  assert (Z0 : forall x, In x scales -> x = 0).
  { intros x Hx. apply In_nth_error in Hx as (i & Hi). destruct (An i x Hi) as [A1 A2].
    destruct (Nat.eq_dec n 1); [auto|]. rewrite A2 by lia. ring. }
  assert (Lim0 : 0 < limit) by (pose proof (pdist_nonneg v d0); lra).
  inversion Run as [|scale scales' noise ? d1 d2 limited ? ? ? g1 ? ? ? ? Dn It Run']; subst.
  { cbn in Hn. lia. }
  assert (scale = 0) by (apply Z0; left; auto). subst scale. destruct Dn as [Dn _]. destruct (Dn eq_refl) as [-> ->].
  destruct (iteration_finds _ _ _ _ _ _ _ _ _ _ _ _ L1 Ht Hk Sh Sep Lim Hv It) as (-> & -> & ->).
  destruct (iterations_found _ _ _ _ _ _ _ _ _ _ _ _ _ _ _ _ _ _ L1 Ht Hk Sh Lim0 Hv (fun x Hx => Z0 x (or_intror Hx)) Run' eq_refl)
    as (-> & A & B & C).
  specialize (B eq_refl eq_refl). cbn in *. subst. reflexivity.
Qed.
Print Assumptions align_latest_finds_drift.

(** C62: what happens to the array given as init_shift *)
Lemma loop_init {G} (s : sampler G) asort new reference nc rc ms limit trim scales :
  forall d init g,
  let al := align_loop s asort new reference nc rc ms limit trim scales d false init g in
  al_shared al = false /\ al_init al = init.
Proof.
  induction scales as [|sc scales IH]; intros d init g; cbn [align_loop]; [auto|].
  destruct (draw_noise s sc g) as [noise g1].
  destruct (mean_offset _ _ _ _ _ _ _ _ _) as [o|x|]; auto.
  destruct (clip_drift ms _) as [d2 fresh]. apply IH.
Qed.
Lemma loop_shared {G} (s : sampler G) asort new reference nc rc ms limit trim scales :
  forall d g r,
  let al := align_loop s asort new reference nc rc ms limit trim scales d true d g in
  al_result al = Ok r ->
  (al_shared al = true -> al_init al = r).
Proof.
  induction scales as [|sc scales IH]; intros d g r; cbn [align_loop].
  - cbn. congruence.
  - destruct (draw_noise s sc g) as [noise g1].
    destruct (mean_offset _ _ _ _ _ _ _ _ _) as [o|x|]; try discriminate.
    destruct (clip_drift ms _) as [d2 fresh] eqn:Ec. destruct fresh; cbn [andb negb].
    + intros _ K. destruct (loop_init s asort new reference nc rc ms limit trim scales d2 (vadd d (vadd (Some noise) o)) g1) as [A _].
      congruence.
    + assert (d2 = vadd d (vadd (Some noise) o)) as <-; [|apply IH].
      unfold clip_drift in Ec. destruct (vadd d _) as [e|]; [|congruence]. destruct (Rltb ms (pnorm e)); congruence.
Qed.
Theorem align_latest_init_untouched {G} (s : sampler G) asort :
  forall new reference new_classes ref_classes n noise_scale max_shift limit trim init g,
  let al := align_latest s asort new reference new_classes ref_classes n noise_scale max_shift limit trim init g in
  (init = None -> al_shared al = false) /\
  (forall i, init = Some i -> n = 0%nat -> al_init al = i /\ al_result al = Ok i).
Proof.
  intros. split.
  - intros E. unfold al, align_latest. rewrite E.
    apply (loop_init s asort new reference new_classes ref_classes max_shift limit trim _ (Some pzero) None g).
  - intros i -> ->. auto.
Qed.
Print Assumptions align_latest_init_untouched.
(** as long as the drift is not limited the array holds it; once it is, the
    array keeps the sum before limiting *)
Theorem align_latest_init_overwritten {G} (s : sampler G) asort :
  forall new reference new_classes ref_classes n noise_scale max_shift limit trim i g d,
  let al := align_latest s asort new reference new_classes ref_classes n noise_scale max_shift limit trim (Some i) g in
  al_result al = Ok d ->
  (al_shared al = true -> al_init al = d) /\
  (al_shared al = false -> exists e, al_init al = Some e /\ max_shift < pnorm e).
Proof.
  intros new reference nc rc n ns ms limit trim i g d. cbv zeta. unfold align_latest.
  generalize (map (noise_scale_at ns n) (seq 0 n)) as scales. intros scales E. split.
  - eapply loop_shared; eauto.
  - clear n ns. revert i g d E. induction scales as [|sc scales IH]; intros i g d; cbn [align_loop].
    + cbn. discriminate.
    + destruct (draw_noise s sc g) as [noise g1].
      destruct (mean_offset _ _ _ _ _ _ _ _ _) as [o|x|]; try discriminate.
      destruct (clip_drift ms _) as [d2 fresh] eqn:Ec. destruct fresh; cbn [andb negb].
      * intros _ _.
        destruct (loop_init s asort new reference nc rc ms limit trim scales d2 (vadd i (vadd (Some noise) o)) g1) as [_ ->].
        destruct (vadd i _) as [e|]; [|discriminate]. exists e. split; auto.
        destruct (clip_drift_spec ms e) as [[_ H]|[H _]]; [congruence|auto].
      * assert (d2 = vadd i (vadd (Some noise) o)) as <-; [|apply IH].
        unfold clip_drift in Ec. destruct (vadd i _) as [e|]; [|congruence]. destruct (Rltb ms (pnorm e)); congruence.
Qed.
Print Assumptions align_latest_init_overwritten.

(** C62, refuted: a call with the default init_shift depends on earlier ones.
    The same call, with any number of iterations, first and after another one: *)
Theorem align_latest_calls_independent_refuted n : (1 <= n)%nat ->
  exists (new ref ref' : list pt) (classes : list Z),
  let call reference init :=
    align_latest (ex_sampler 1) argsort_stable new (map Some reference) classes (map (fun _ => 0%Z) reference)
      n 0 2 (Some 2) 0 (Some init) 0%nat in
  al_result (call ref' default_init_shift) = Ok (Some (mkpt 0 0)) /\
  al_result (call ref' (al_init (call ref default_init_shift))) = Ok (Some (mkpt 1 0)).
Proof.
  intros Hn. exists [mkpt 0 0], [mkpt 1 0], [mkpt 0 0; mkpt 1 0], [0%Z].
  assert (N1 : pnorm (mkpt 1 0) = 1).
  { apply Rsqr_inj; [apply pnorm_nonneg|lra|]. unfold Rsqr. rewrite pnorm_sq. unfold psq. cbn. lra. }
  assert (N0 : pnorm pzero = 0) by (apply pnorm_zero; auto).
  cbv zeta. split.
  - unfold default_init_shift. cbn [map].
    change [Some (mkpt 0 0); Some (mkpt 1 0)] with (map Some [mkpt 0 0; mkpt 1 0]).
    rewrite (align_latest_finds_drift (ex_sampler 1) argsort_stable argsort_stable_ok _ _ _ _ _ _ _ _ _ _ (mkpt 0 0)); auto; try lra.
    + cbn. lra.
    + intros p c [K|[]]. injection K as <- <-. cbn. left. apply pt_eq; cbn; lra.
    + intros c p q _ _ N. change (mkpt 0 0) with pzero. rewrite pdist_self. pose proof (pdist_pos p q N). lra.
    + change (mkpt 0 0) with pzero. rewrite pdist_self. lra.
    + change (mkpt 0 0) with pzero. lra.
  - assert (Ed : pdist (mkpt 1 0) pzero = 1).
    { unfold pdist. replace (psub (mkpt 1 0) pzero) with (mkpt 1 0) by (apply pt_eq; cbn; lra). auto. }
    assert (First : align_latest (ex_sampler 1) argsort_stable [mkpt 0 0] (map Some [mkpt 1 0]) [0%Z] (map (fun _ => 0%Z) [mkpt 1 0])
               n 0 2 (Some 2) 0 (Some default_init_shift) 0%nat = mkaligned (Ok (Some (mkpt 1 0))) true (Some (mkpt 1 0)) 0%nat).
    { apply (align_latest_finds_drift (ex_sampler 1) argsort_stable argsort_stable_ok); auto; try lra.
      - cbn. lra.
      - intros p c [K|[]]. injection K as <- <-. cbn. left. apply pt_eq; cbn; lra.
      - intros c p q Hp Hq N. unfold of_class in *. destruct c as [|c|c]; cbn in *; try contradiction.
        destruct Hp as [<-|[]], Hq as [<-|[]]. congruence. }
    rewrite First. cbn [al_init].
    rewrite (align_latest_finds_drift (ex_sampler 1) argsort_stable argsort_stable_ok _ _ _ _ _ _ _ _ _ _ (mkpt 1 0)); auto; try lra.
    + cbn. lra.
    + intros p c [K|[]]. injection K as <- <-. cbn. right; left. apply pt_eq; cbn; lra.
    + intros c p q _ _ N. rewrite pdist_self. pose proof (pdist_pos p q N). lra.
    + rewrite pdist_self. lra.
Qed.
Print Assumptions align_latest_calls_independent_refuted.

(** a cloud of two classes, moved by (1/2, 0), that meets the hypotheses of
    [align_latest_finds_drift] *)
Example align_latest_nonvacuous :
  let ref := [mkpt 0 0; mkpt 3 0; mkpt 0 1] in
  let new := [mkpt (5 / 2) 0; mkpt (-1 / 2) 1] in
  let v := mkpt (1 / 2) 0 in
  argsort_ok argsort_stable /\
  shifted_from new [0%Z; 1%Z] ref [0%Z; 0%Z; 1%Z] v /\ separated ref [0%Z; 0%Z; 1%Z] (pdist v pzero) /\
  pdist v pzero < 2 /\ pnorm v <= 2 /\ 1 <= (1 - 1 / 4) * INR (length new).
Proof.
  intros ref new v. split; [apply argsort_stable_ok|].
  assert (Nv : pnorm v = 1 / 2).
  { apply Rsqr_inj; [apply pnorm_nonneg|lra|]. unfold Rsqr. rewrite pnorm_sq. unfold psq. cbn. lra. }
  assert (Dv : pdist v pzero = 1 / 2).
  { unfold pdist. replace (psub v pzero) with v by (apply pt_eq; cbn; lra). auto. }
  split; [|split; [|split; [|split]]]; try (rewrite ?Nv, ?Dv; cbn; lra).
  - intros p c [K|[K|[]]]; injection K as <- <-; cbn.
    + right; left. apply pt_eq; cbn; lra.
    + left. apply pt_eq; cbn; lra.
  - intros c p q Hp Hq N. rewrite Dv. unfold of_class in *. cbn in *.
    assert (D3 : pdist (mkpt 0 0) (mkpt 3 0) = 3).
    { apply Rsqr_inj; [apply pdist_nonneg|lra|]. unfold pdist, Rsqr. rewrite pnorm_sq. unfold psq. cbn. lra. }
    destruct c as [|c|c]; cbn in *; try contradiction.
    + destruct Hp as [<-|[<-|[]]], Hq as [<-|[<-|[]]]; try congruence; [|rewrite pdist_sym]; lra.
    + destruct (Pos.eqb 1 c); cbn in *; [|contradiction].
      destruct Hp as [<-|[]], Hq as [<-|[]]; congruence.
Qed.
