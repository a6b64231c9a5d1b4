(** Property C117: drawing, writing and reading Gaussian mixture rate functions. *)
From Coq Require Import Reals String ZArith List Bool Lia Lra Arith.
From Verif Require Import Base.Prelude Base.Matrix Base.Random Model.Constants Model.Geometry
  Model.MicroscopeUtils Model.Graphene Model.Downloads Model.ModelTraining Model.RateFunctionFiles
  Spec.Grids Spec.Neighbours Spec.Material Spec.MaterialRuns Spec.RateFunctionFiles
  Proofs.BaseFacts Proofs.MaterialFacts Props.RateProps Props.DownloadProps.
Import ListNotations.
Local Open Scope R_scope.

Lemma map_seq_nth {A B} (f : A -> B) (d : A) (l : list A) :
  map (fun i => f (nth i l d)) (seq 0 (length l)) = map f l.
Proof.
  induction l as [|a l IH]; [reflexivity|]. cbn [length seq map nth]. f_equal.
  rewrite <- seq_shift, map_map. exact IH.
Qed.
Lemma of_arrays_unzip mr cs : of_arrays mr (map mix_weight cs) (map mix_loc cs) (map mix_var cs) = mkgmm mr cs.
Proof.
  unfold of_arrays. f_equal. induction cs as [|c cs IH]; [reflexivity|].
  cbn [map combine fst snd]. rewrite IH. destruct c; reflexivity.
Qed.
Lemma rsum_cons a l : rsum (a :: l) = a + rsum l.
Proof. reflexivity. Qed.
Lemma rsum_scale k l : rsum (map (fun x => x / k) l) = rsum l / k.
Proof. induction l as [|a l IH]; cbn [map]; [unfold rsum, Rdiv; cbn; ring|]. rewrite !rsum_cons, IH. unfold Rdiv; ring. Qed.
Lemma rsum_zero l : (forall x, In x l -> 0 <= x) -> rsum l = 0 -> forall x, In x l -> x = 0.
Proof.
  induction l as [|a l IH]; intros P E x H; [destruct H|]. rewrite rsum_cons in E.
  assert (0 <= rsum l) by (apply rsum_nonneg; intros; apply P; right; assumption).
  pose proof (P a (or_introl eq_refl)). destruct H as [<-|H]; [lra|].
  apply IH; [intros; apply P; right; assumption|lra|assumption].
Qed.
Lemma rsum_all_zero l : (forall x, In x l -> x = 0) -> rsum l = 0.
Proof.
  induction l as [|a l IH]; intro P; [reflexivity|]. rewrite rsum_cons, (P a (or_introl eq_refl)), IH; [lra|].
  intros; apply P; right; assumption.
Qed.
Lemma uniform_range lo hi u : lo < hi -> 0 <= u < 1 -> lo <= rng_uniform lo hi u < hi.
Proof. intros L [A B]. unfold rng_uniform. split; nra. Qed.
Lemma uniforms_range draws k n lo hi x : uniform_draws draws -> lo < hi -> In x (rng_uniforms draws k n lo hi) -> lo <= x < hi.
Proof. intros D L H. apply in_map_iff in H. destruct H as (i & <- & _). apply uniform_range; auto. Qed.
Lemma combine_in {A B} (l : list A) (m : list B) p : In p (combine l m) -> In (fst p) l /\ In (snd p) m.
Proof. destruct p. intro H. split; [eapply in_combine_l|eapply in_combine_r]; eassumption. Qed.

Lemma arrays_components mr ws ls vs : length ls = length ws -> length vs = length ws ->
  let cs := gmm_components (of_arrays mr ws ls vs) in
  map mix_weight cs = ws /\ map mix_loc cs = ls /\ map mix_var cs = vs.
Proof.
  cbn. revert ls vs. induction ws as [|w ws IH]; intros [|l ls] [|v vs] A B; try discriminate; [auto|].
  cbn [combine map fst snd]. cbn in A, B. destruct (IH ls vs) as (E1 & E2 & E3); try lia.
  rewrite E1, E2, E3. auto.
Qed.

Lemma sample_parts n draws m : sample_new n draws = Some m ->
  let k := (n + 1)%nat in
  let ws := rng_uniforms draws 1 k 0 10 in
  rsum ws <> 0 /\ gmm_max_rate m = rng_uniform (1 / 100) 1 (draws 0%nat) /\
  map mix_weight (gmm_components m) = map (fun w => w / rsum ws) ws /\
  map mix_loc (gmm_components m) = rng_uniforms draws (1 + k) k (-2) 3 /\
  map mix_var (gmm_components m) = rng_uniform_pairs draws (1 + 2 * k) k (1 / 10) 5.
Proof.
  unfold sample_new. cbv zeta. destruct (Reqb _ 0) eqn:E; [discriminate|]. intro H. injection H as <-.
  split; [intro Z; apply Reqb_true in Z; congruence|]. split; [reflexivity|].
  apply arrays_components; unfold rng_uniforms, rng_uniform_pairs; rewrite !map_length, !seq_length; reflexivity.
Qed.

(** ** Sampling *)
Theorem sampled_ranges : forall n draws m, uniform_draws draws -> sample_new n draws = Some m ->
  length (gmm_components m) = S n /\ drawable m.
Proof.
  intros n draws m D H. destruct (sample_parts n draws m H) as (NZ & Er & Ew & El & Ev). cbv zeta in *.
  assert (L : length (gmm_components m) = S n).
  { rewrite <- (map_length mix_loc), El. unfold rng_uniforms. rewrite map_length, seq_length. lia. }
  assert (P : 0 < rsum (rng_uniforms draws 1 (n + 1) 0 10)).
  { assert (0 <= rsum (rng_uniforms draws 1 (n + 1) 0 10)); [|lra]. apply rsum_nonneg. intros x Hx.
    apply uniforms_range in Hx; [lra|assumption|lra]. }
  split; [exact L|]. constructor.
  - intro Z. rewrite Z in L. discriminate.
  - rewrite Er. apply uniform_range; [lra|apply D].
  - intros c Hc. apply (in_map mix_weight) in Hc. rewrite Ew in Hc. apply in_map_iff in Hc.
    destruct Hc as (w & <- & Hw). apply uniforms_range in Hw; [|assumption|lra].
    apply Rmult_le_pos; [lra|]. left. apply Rinv_0_lt_compat. exact P.
  - rewrite Ew, rsum_scale. field. lra.
  - intros c Hc. apply (in_map mix_loc) in Hc. rewrite El in Hc. apply uniforms_range in Hc; [lra|assumption|lra].
  - intros c Hc. apply (in_map mix_var) in Hc. rewrite Ev in Hc. apply in_map_iff in Hc.
    destruct Hc as (i & <- & _). cbn [fst snd]. split; apply uniform_range; try lra; apply D.
Qed.
Print Assumptions sampled_ranges.

(** nothing in these ranges is left out *)
Theorem sampled_every : forall m, drawable m ->
  exists n draws, uniform_draws draws /\ sample_new n draws = Some m.
Proof.
  intros [mr cs] [Sm Rt Wt Tt Lt Vt]. cbn [gmm_max_rate gmm_components] in *.
  set (N := length cs). set (c0 := mkmixture 0 0 (1, 1)).
  set (draws := fun k : nat =>
    if (k =? 0)%nat then (mr - 1 / 100) / (99 / 100)
    else if (k <=? N)%nat then mix_weight (nth (k - 1) cs c0) / 10
    else if (k <=? 2 * N)%nat then (mix_loc (nth (k - 1 - N) cs c0) + 2) / 5
    else let j := (k - 1 - 2 * N)%nat in
      let v := mix_var (nth (j / 2) cs c0) in
      ((if Nat.even j then fst v else snd v) - 1 / 10) / (49 / 10)).
  assert (W1 : forall c, In c cs -> mix_weight c <= 1).
  { intros c Hc. rewrite <- Tt. clear -Hc Wt. induction cs as [|a l IH]; [destruct Hc|]. cbn [map]. rewrite rsum_cons.
    assert (forall l', (forall c, In c l' -> 0 <= mix_weight c) -> 0 <= rsum (map mix_weight l')) as Nn.
    { intros l' H. apply rsum_nonneg. intros x Hx. apply in_map_iff in Hx. destruct Hx as (y & <- & Hy). auto. }
    destruct Hc as [<-|Hc].
    - specialize (Nn l (fun c h => Wt c (or_intror h))). lra.
    - specialize (IH (fun c h => Wt c (or_intror h)) Hc). pose proof (Wt a (or_introl eq_refl)). lra. }
  assert (Nt : forall i, nth i cs c0 = c0 \/ In (nth i cs c0) cs).
  { intro i. destruct (nth_in_or_default i cs c0); auto. }
  exists (N - 1)%nat, draws. split.
  - intro k. unfold draws. destruct (k =? 0)%nat; [lra|]. destruct (k <=? N)%nat.
    { destruct (Nt (k - 1)%nat) as [-> | H]; [cbn; lra|]. pose proof (Wt _ H). pose proof (W1 _ H). lra. }
    destruct (k <=? 2 * N)%nat.
    { destruct (Nt (k - 1 - N)%nat) as [-> | H]; [cbn; lra|]. pose proof (Lt _ H). lra. }
    cbv zeta. destruct (Nt ((k - 1 - 2 * N) / 2)%nat) as [-> | H].
    + cbn [mix_var c0 fst snd]. destruct (Nat.even _); lra.
    + pose proof (Vt _ H). destruct (Nat.even _); lra.
  - assert (NP : (1 <= N)%nat) by (unfold N; destruct cs; [congruence|cbn; lia]).
    unfold sample_new. cbv zeta. replace (N - 1 + 1)%nat with N by lia.
    assert (Ew : rng_uniforms draws 1 N 0 10 = map mix_weight cs).
    { rewrite <- (map_seq_nth mix_weight c0 cs). unfold rng_uniforms. apply map_ext_in. intros i Hi.
      apply in_seq in Hi. fold N in Hi. unfold draws, rng_uniform.
      destruct (Nat.eqb_spec (1 + i) 0); [lia|]. destruct (Nat.leb_spec (1 + i) N); [|lia].
      replace (1 + i - 1)%nat with i by lia. field. }
    assert (El : rng_uniforms draws (1 + N) N (-2) 3 = map mix_loc cs).
    { rewrite <- (map_seq_nth mix_loc c0 cs). unfold rng_uniforms. apply map_ext_in. intros i Hi.
      apply in_seq in Hi. fold N in Hi. unfold draws, rng_uniform.
      destruct (Nat.eqb_spec (1 + N + i) 0); [lia|]. destruct (Nat.leb_spec (1 + N + i) N); [lia|].
      destruct (Nat.leb_spec (1 + N + i) (2 * N)); [|lia].
      replace (1 + N + i - 1 - N)%nat with i by lia. field. }
    assert (Ev : rng_uniform_pairs draws (1 + 2 * N) N (1 / 10) 5 = map mix_var cs).
    { rewrite <- (map_seq_nth mix_var c0 cs). unfold rng_uniform_pairs. apply map_ext_in. intros i Hi.
      apply in_seq in Hi. fold N in Hi. unfold draws, rng_uniform.
      destruct (Nat.eqb_spec (1 + 2 * N + 2 * i) 0); [lia|].
      destruct (Nat.eqb_spec (1 + 2 * N + 2 * i + 1) 0); [lia|].
      destruct (Nat.leb_spec (1 + 2 * N + 2 * i) N); [lia|].
      destruct (Nat.leb_spec (1 + 2 * N + 2 * i + 1) N); [lia|].
      destruct (Nat.leb_spec (1 + 2 * N + 2 * i) (2 * N)); [lia|].
      destruct (Nat.leb_spec (1 + 2 * N + 2 * i + 1) (2 * N)); [lia|]. cbv zeta.
      replace (1 + 2 * N + 2 * i - 1 - 2 * N)%nat with (i * 2)%nat by lia.
      replace (1 + 2 * N + 2 * i + 1 - 1 - 2 * N)%nat with (1 + i * 2)%nat by lia.
      rewrite Nat.div_mul by lia. rewrite Nat.div_add by lia.
      replace (Nat.even (i * 2)) with true by (symmetry; rewrite Nat.even_mul; apply orb_true_r).
      replace (Nat.even (1 + i * 2)) with false
        by (symmetry; rewrite Nat.even_add, Nat.even_mul; cbn; rewrite orb_true_r; reflexivity).
      change (1 / 2)%nat with 0%nat. cbn [Nat.add].
      destruct (mix_var (nth i cs c0)) as [x y]; cbn [fst snd]. f_equal; field. }
    rewrite Ew, El, Ev, Tt. destruct (Reqb 1 0) eqn:E; [apply Reqb_true in E; lra|]. f_equal.
    replace (map (fun w => w / 1) (map mix_weight cs)) with (map mix_weight cs)
      by (rewrite map_map; apply map_ext; intro; field).
    rewrite of_arrays_unzip. f_equal. unfold draws, rng_uniform. cbn [Nat.eqb]. field.
Qed.
Print Assumptions sampled_every.

(** the only draws that give no rate function *)
Theorem sampled_undefined : forall n draws, uniform_draws draws ->
  (sample_new n draws = None <-> forall i, (i <= n)%nat -> draws (S i) = 0).
Proof.
  intros n draws D. unfold sample_new. cbv zeta.
  destruct (Reqb (rsum (rng_uniforms draws 1 (n + 1) 0 10)) 0) eqn:E.
  - apply Reqb_true in E. split; [|reflexivity]. intros _ i Hi.
    assert (rng_uniform 0 10 (draws (1 + i)%nat) = 0) as X.
    { apply (rsum_zero (rng_uniforms draws 1 (n + 1) 0 10)); [|exact E|].
      - intros x Hx. apply uniforms_range in Hx; [lra|assumption|lra].
      - unfold rng_uniforms. apply in_map_iff. exists i. split; [reflexivity|]. apply in_seq. lia. }
    unfold rng_uniform in X. cbn in X |- *. lra.
  - split; [discriminate|]. intro H. exfalso.
    assert (rsum (rng_uniforms draws 1 (n + 1) 0 10) = 0) as X; [|apply Reqb_true in X; congruence].
    apply rsum_all_zero. intros x Hx. unfold rng_uniforms in Hx. apply in_map_iff in Hx.
    destruct Hx as (i & <- & Hi). apply in_seq in Hi. unfold rng_uniform. change (1 + i)%nat with (S i). rewrite (H i) by lia. ring.
Qed.
Print Assumptions sampled_undefined.

(** a drawn rate function can be asked about every sheet with one silicon atom
    and three neighbours, and its rates are not negative and below its number of
    components *)
Theorem sampled_usable : forall knn n draws m g beam s,
  uniform_draws draws -> sample_new n draws = Some m ->
  knn_ok knn -> single_doped g s -> NoDup (positions g) -> (4 <= length (positions g))%nat ->
  exists rs, gmm_rate_function knn m g beam = Ok rs /\ length rs = 3%nat /\
    forall g' r, In (g', r) rs -> 0 <= r <= INR (S n) * gmm_max_rate m.
Proof.
  intros knn n draws m g beam s D E K Sd Nd L. destruct (sampled_ranges n draws m D E) as (Ln & [Sm Rt Wt Tt Lt Vt]).
  assert (V : Forall valid_component (gmm_components m)).
  { apply Forall_forall. intros c Hc. pose proof (Wt c Hc). pose proof (Vt c Hc). unfold valid_component. lra. }
  destruct (single_doped_pos g s Sd) as (si & Hs).
  assert (X : exists c, In c (gmm_components m) /\ 0 < mix_weight c).
  { destruct (existsb (fun c => Rltb 0 (mix_weight c)) (gmm_components m)) eqn:Ex.
    - apply existsb_exists in Ex. destruct Ex as (c & Hc & P). apply Rltb_true in P. eauto.
    - exfalso. assert (rsum (map mix_weight (gmm_components m)) = 0); [|lra]. apply rsum_all_zero.
      intros x Hx. apply in_map_iff in Hx. destruct Hx as (c & <- & Hc). pose proof (Wt c Hc).
      destruct (Rltb 0 (mix_weight c)) eqn:Q.
      + assert (existsb (fun c => Rltb 0 (mix_weight c)) (gmm_components m) = true); [|congruence].
        apply existsb_exists. eauto.
      + apply Rltb_false in Q. lra. }
  destruct (mixture_rates knn m g beam s si K Sd Nd Hs L V X) as (idx & top & rs & T & It & Pt & Top & Er & Rs).
  exists rs. split; [exact Er|]. split.
  - destruct Rs as [Lr _]. rewrite Lr. apply T.
  - intros g' r Hr. rewrite <- Ln. apply (mixture_rate_bounds m g beam si idx top rs g' r); auto. lra.
Qed.
Print Assumptions sampled_usable.

Example sampled_nonvacuous : exists draws m, uniform_draws draws /\ sample_new 1 draws = Some m /\
  length (gmm_components m) = 2%nat.
Proof.
  exists (fun _ => 1 / 2). eexists. split; [intro; lra|]. split.
  - unfold sample_new. cbv zeta. destruct (Reqb _ 0) eqn:E; [|reflexivity].
    apply Reqb_true in E. exfalso. unfold rng_uniforms, rng_uniform in E. cbn in E. lra.
  - unfold of_arrays. cbn [gmm_components]. rewrite map_length. reflexivity.
Qed.

(** ** Files *)
Section Files.
Context {Byte : Type}.
Notation content := (list Byte).
Implicit Types d : @disk Byte.
Variables (pack : bundle -> content) (unpack : content -> res bundle) (pieces : content -> list content).

Lemma serialized_file dir f d q : (forall c, concat (pieces c) = c) ->
  d_file (do_writes d (serialize pack pieces dir f)) q =
    if path_eqb (file_of dir) q then Some (pack (to_bundle f)) else d_file d q.
Proof.
  intro P. unfold serialize. rewrite do_writes_app, retrieve_file. unfold put_over. cbn [fst]. rewrite P.
  unfold file_of, parameter_file. rewrite mkdirs_files. reflexivity.
Qed.
Lemma holds_entry b key v : holds b key v -> entry b key = Ok v.
Proof.
  intros (before & after & -> & N). unfold entry, lookup_key.
  induction before as [|[k x] l IH]; cbn [app find fst].
  - rewrite String.eqb_refl. reflexivity.
  - destruct (String.eqb_spec k key); [subst; contradiction N; left; reflexivity|].
    apply IH. intro H. apply N. right. exact H.
Qed.
Lemma entry_missing b key : ~ In key (map fst b) -> entry b key = Raise KeyError.
Proof.
  intro N. unfold entry, lookup_key. induction b as [|[k x] l IH]; [reflexivity|]. cbn [find fst].
  destruct (String.eqb_spec k key); [subst; contradiction N; left; reflexivity|].
  apply IH. intro H. apply N. right. exact H.
Qed.
Lemma entry_cases b key : (exists v, holds b key v) \/ ~ In key (map fst b).
Proof.
  induction b as [|[k x] l IH]; [right; intros []|]. destruct (string_dec k key) as [->|Nk].
  - left. exists x, [], l. split; [reflexivity|intros []].
  - destruct IH as [(v & before & after & -> & N) | N].
    + left. exists v, ((k, x) :: before), after. split; [reflexivity|]. intros [H|H]; [exact (Nk H)|exact (N H)].
    + right. intros [H|H]; [exact (Nk H)|exact (N H)].
Qed.

(** what was written to a directory is read from it, whatever was there before *)
Theorem rate_function_round_trip : forall dir m d,
  (forall b, unpack (pack b) = Ok b) -> (forall c, concat (pieces c) = c) ->
  let d' := do_writes d (serialize pack pieces dir (fields_of m)) in
  exists f, deserialize unpack dir d' = Ok f /\
    f = fields_of m /\
    forall m', f = fields_of m' ->
      m' = m /\ gmm_eq m m' = true /\ forall knn g beam, gmm_rate_function knn m' g beam = gmm_rate_function knn m g beam.
Proof.
  intros dir m d U P. cbv zeta. exists (fields_of m). split; [|split; [reflexivity|]].
  - unfold deserialize. fold (file_of dir).
    change (dir ++ [parameter_file]) with (file_of dir). rewrite serialized_file by exact P. rewrite path_eqb_refl.
    rewrite U. reflexivity.
  - intros m' E. assert (m' = m) as ->.
    { destruct m as [a cs], m' as [b cs']. unfold fields_of in E. cbn [gmm_max_rate gmm_components] in E.
      assert (a = b) by congruence. subst b. f_equal.
      assert (Ew : map mix_weight cs = map mix_weight cs') by congruence.
      assert (El : map mix_loc cs = map mix_loc cs') by congruence.
      assert (Ev : map mix_var cs = map mix_var cs') by congruence.
      assert (mkgmm a cs = mkgmm a cs') as X; [|congruence].
      rewrite <- (of_arrays_unzip a cs), <- (of_arrays_unzip a cs'), Ew, El, Ev. reflexivity. }
    split; [reflexivity|]. split; [apply mixture_eq_reflexive_symmetric|reflexivity].
Qed.

(** the file in the directory, with its five entries, and nothing else *)
Theorem rate_function_file : forall dir m d, (forall c, concat (pieces c) = c) ->
  let d' := do_writes d (serialize pack pieces dir (fields_of m)) in
  (forall p, p <> file_of dir -> d_file d' p = d_file d p) /\
  (forall p, d_dir d' p = true <-> d_dir d p = true \/ (p <> [] /\ first_part p dir)) /\
  exists b, d_file d' (file_of dir) = Some (pack b) /\ length b = 5%nat /\
    holds b "sem_ver" (Text "1.0.0") /\ holds b "max_rate" (Number (gmm_max_rate m)) /\
    holds b "mixture_weights" (Vector (map mix_weight (gmm_components m))) /\
    holds b "loc_distances" (Vector (map mix_loc (gmm_components m))) /\
    holds b "variances" (Pairs (map mix_var (gmm_components m))).
Proof.
  intros dir m d P. cbv zeta. split; [|split].
  - intros p N. rewrite serialized_file by exact P. destruct (path_eqb _ p) eqn:E; [|reflexivity].
    apply path_eqb_true in E. congruence.
  - intro p. unfold serialize. rewrite do_writes_app.
    set (d1 := do_writes d (mkdirs dir)).
    assert (Rd : forall t d0 q, d_dir (do_writes d0 (retrieve q t)) p = d_dir d0 p).
    { intros t d0 q. unfold retrieve, do_writes. cbn [fold_left].
      set (d2 := do_write d0 (Put q [])). change (d_dir d0 p) with (d_dir d2 p). generalize d2.
      generalize (@nil Byte). generalize (fst t). intro bs. induction bs as [|b bs IH]; intros l d3; [reflexivity|].
      cbn [put_blocks fold_left]. rewrite IH. reflexivity. }
    rewrite Rd. unfold d1, mkdirs.
    assert (M : forall l d0, d_dir (do_writes d0 (map Mkdir l)) p = true <-> In p l \/ d_dir d0 p = true).
    { induction l as [|q l IH]; intro d0; [cbn; tauto|]. cbn [map]. unfold do_writes in *. cbn [fold_left]. rewrite IH.
      cbn [do_write d_dir In]. rewrite orb_true_iff, path_eqb_true. tauto. }
    rewrite M. unfold ancestors. rewrite in_map_iff.
    enough ((exists n, firstn n dir = p /\ In n (seq 1 (length dir))) <-> p <> [] /\ first_part p dir) by tauto.
    split.
    + intros (n & <- & Hn). apply in_seq in Hn. split.
      * intro Z. destruct dir as [|x l]; [cbn in Hn; lia|]. destruct n; [lia|]. discriminate Z.
      * exists (skipn n dir). symmetry. apply firstn_skipn.
    + intros (Np & rest & ->). exists (length p). split.
      * rewrite firstn_app, Nat.sub_diag, firstn_all. cbn. apply app_nil_r.
      * apply in_seq. rewrite app_length. destruct p; [congruence|cbn; lia].
  - exists (to_bundle (fields_of m)). rewrite serialized_file by exact P. rewrite path_eqb_refl.
    split; [reflexivity|]. split; [reflexivity|].
    unfold to_bundle, fields_of. cbn [f_max_rate f_weights f_locs f_variances].
    repeat split.
    + eexists [], _. split; [reflexivity|intros []].
    + eexists [_], _. split; [reflexivity|]. cbn. intuition discriminate.
    + eexists [_; _], _. split; [reflexivity|]. cbn. intuition discriminate.
    + eexists [_; _; _], _. split; [reflexivity|]. cbn. intuition discriminate.
    + eexists [_; _; _; _], _. split; [reflexivity|]. cbn. intuition discriminate.
Qed.

(** reading: every outcome *)
Theorem rate_function_read : forall dir d,
  match d_file d (file_of dir) with
  | None => deserialize unpack dir d = Raise FileNotFoundError
  | Some bytes =>
      (forall b mr ws ls vs, unpack bytes = Ok b ->
        holds b "max_rate" mr -> holds b "mixture_weights" ws -> holds b "loc_distances" ls -> holds b "variances" vs ->
        deserialize unpack dir d = Ok (mkfields mr ws ls vs)) /\
      (forall b key, unpack bytes = Ok b ->
        In key ["max_rate"; "mixture_weights"; "loc_distances"; "variances"]%string -> ~ In key (map fst b) ->
        deserialize unpack dir d = Raise KeyError) /\
      (forall e, unpack bytes = Raise e -> deserialize unpack dir d = Raise e)
  end.
Proof.
  intros dir d. unfold deserialize. change (dir ++ [parameter_file]) with (file_of dir).
  destruct (d_file d (file_of dir)) as [bytes|]; [|reflexivity]. split; [|split].
  - intros b mr ws ls vs -> H1 H2 H3 H4. cbn [bind]. unfold of_bundle.
    rewrite (holds_entry _ _ _ H1), (holds_entry _ _ _ H2), (holds_entry _ _ _ H3), (holds_entry _ _ _ H4). reflexivity.
  - intros b key -> Hk N. cbn [bind]. unfold of_bundle.
    assert (C : forall k, (exists v, entry b k = Ok v) \/ entry b k = Raise KeyError).
    { intro k. destruct (entry_cases b k) as [(v & H) | H]; [left; exists v; apply holds_entry; exact H|right; apply entry_missing; exact H]. }
    apply entry_missing in N.
    destruct (C "max_rate"%string) as [[v1 E1]|E1]; rewrite E1; [cbn [bind]|reflexivity].
    destruct (C "mixture_weights"%string) as [[v2 E2]|E2]; rewrite E2; [cbn [bind]|reflexivity].
    destruct (C "loc_distances"%string) as [[v3 E3]|E3]; rewrite E3; [cbn [bind]|reflexivity].
    destruct (C "variances"%string) as [[v4 E4]|E4]; rewrite E4; [cbn [bind]|reflexivity].
    destruct Hk as [<-|[<-|[<-|[<-|[]]]]]; congruence.
  - intros e ->. reflexivity.
Qed.

Lemma put_blocks_cut p blocks k before d : d_file d p = Some before ->
  exists c, d_file (do_writes d (firstn k (put_blocks p before blocks))) p = Some (before ++ c) /\ first_part c (concat blocks).
Proof.
  revert k before d. induction blocks as [|b bs IH]; intros [|k] before d H; cbn [put_blocks firstn concat].
  1-3: exists []; rewrite app_nil_r; split; [exact H|eexists; reflexivity].
  unfold do_writes in *. cbn [fold_left]. destruct (IH k (before ++ b) (do_write d (Put p (before ++ b)))) as (c & E & rest & R).
  - cbn. rewrite path_eqb_refl. reflexivity.
  - exists (b ++ c). rewrite E, <- app_assoc. split; [reflexivity|]. exists rest. rewrite R, <- app_assoc. reflexivity.
Qed.
Lemma mkdirs_cut_files p d k : d_file (do_writes d (firstn k (mkdirs p))) = d_file d.
Proof.
  unfold mkdirs. generalize (ancestors p). intro l. revert d k. induction l as [|q l IH]; intros d [|k]; try reflexivity.
  cbn [map firstn]. unfold do_writes in *. cbn [fold_left]. rewrite IH. reflexivity.
Qed.

(** a crash at any point: the file is as before, or holds a first part of the
    new one *)
Theorem rate_function_crash : forall dir m d k, (forall c, concat (pieces c) = c) ->
  let d' := cut k (serialize pack pieces dir (fields_of m)) d in
  d_file d' (file_of dir) = d_file d (file_of dir) \/
  exists c b, d_file d' (file_of dir) = Some c /\ first_part c (pack b) /\
    d_file (do_writes d (serialize pack pieces dir (fields_of m))) (file_of dir) = Some (pack b).
Proof.
  intros dir m d k P. cbv zeta. unfold cut. set (b := to_bundle (fields_of m)).
  assert (F : d_file (do_writes d (serialize pack pieces dir (fields_of m))) (file_of dir) = Some (pack b))
    by (rewrite serialized_file by exact P; rewrite path_eqb_refl; reflexivity).
  rewrite F. unfold serialize. rewrite firstn_app, do_writes_app.
  set (d1 := do_writes d (firstn k (mkdirs dir))). set (j := (k - length (mkdirs dir))%nat).
  assert (E1 : d_file d1 = d_file d) by apply mkdirs_cut_files.
  unfold retrieve. change (dir ++ [parameter_file]) with (file_of dir). cbn [fst]. destruct j as [|j].
  - left. cbn. rewrite E1. reflexivity.
  - right. cbn [firstn]. unfold do_writes at 1. cbn [fold_left].
    destruct (put_blocks_cut (file_of dir) (pieces (pack b)) j [] (do_write d1 (Put (file_of dir) []))) as (c & E & Fp).
    + cbn. rewrite path_eqb_refl. reflexivity.
    + exists c, b. rewrite P in Fp. split; [exact E|]. auto.
Qed.
End Files.
Print Assumptions rate_function_round_trip.
Print Assumptions rate_function_file.
Print Assumptions rate_function_read.
Print Assumptions rate_function_crash.

(** the expectation that a crash leaves the old rate function or the new one is
    wrong: after the first two writes to an existing directory of one level the
    file is empty *)
Theorem rate_function_crash_refuted : forall (Byte : Type) (pack : bundle -> list Byte) pieces m d name,
  (forall c, concat (pieces c) = c) ->
  d_file (cut 2 (serialize pack pieces [name] (fields_of m)) d) (file_of [name]) = Some [].
Proof.
  intros Byte pack pieces m d name P. unfold cut, serialize, mkdirs, ancestors, retrieve. cbn [length seq map app firstn].
  unfold do_writes. cbn [fold_left do_write d_file]. unfold file_of, parameter_file. cbn [app].
  rewrite path_eqb_refl. reflexivity.
Qed.
Print Assumptions rate_function_crash_refuted.

(** the hypotheses about msgpack and the writing of bytes can be met *)
Example rate_function_files_nonvacuous : exists (pack : bundle -> list bundle) unpack pieces,
  (forall b, unpack (pack b) = Ok b) /\ (forall c, concat (pieces c) = c) /\
  length (pieces (pack [])) = 1%nat.
Proof.
  exists (fun b => [b]), (fun l => match l with [b] => Ok b | _ => Raise ValueError end), (fun c => [c]).
  split; [reflexivity|]. split; [intro; cbn; apply app_nil_r|reflexivity].
Qed.
