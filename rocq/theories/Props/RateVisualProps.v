(** Property C118, second part: plots of rate predictors and of the data. *)
From Coq Require Import Reals String ZArith List Bool Lia Lra Arith.
From Verif Require Import Base.Prelude Model.MicroscopeUtils Model.Graphene Model.Agents Model.RatePlots
  Spec.RatePlots Proofs.BaseFacts Proofs.MaterialFacts Props.RatePlotsProps.
Import ListNotations.
Local Open Scope R_scope.

Lemma square_length {A B C} (h : A -> B -> C) (xs : list A) (ys : list B) :
  length (flat_map (fun y => map (fun x => h x y) xs) ys) = (length ys * length xs)%nat.
Proof. induction ys as [|y ys IH]; [reflexivity|]. cbn [flat_map]. rewrite app_length, map_length, IH. reflexivity. Qed.
Lemma square_nth {A B C} (h : A -> B -> C) (xs : list A) (ys : list B) a b dx dy d :
  (a < length xs)%nat -> (b < length ys)%nat ->
  nth (b * length xs + a) (flat_map (fun y => map (fun x => h x y) xs) ys) d = h (nth a xs dx) (nth b ys dy).
Proof.
  revert b. induction ys as [|y ys IH]; intros b La Lb; [cbn in Lb; lia|]. cbn [flat_map]. destruct b as [|b].
  - cbn [Nat.mul Nat.add nth]. rewrite app_nth1 by (rewrite map_length; exact La).
    rewrite (nth_indep _ d (h dx y)) by (rewrite map_length; exact La). rewrite (map_nth (fun x => h x y)). reflexivity.
  - rewrite app_nth2 by (rewrite map_length; cbn; lia). rewrite map_length.
    replace (S b * length xs + a - length xs)%nat with (b * length xs + a)%nat by (cbn; lia).
    cbn [nth]. apply IH; [exact La|cbn in Lb; lia].
Qed.
Lemma ticks_length low high n : length (ticks low high n) = n.
Proof. unfold ticks. rewrite map_length. apply seq_length. Qed.
Lemma ticks_nth low high n i d : (i < n)%nat -> nth i (ticks low high n) d = tick low high n i.
Proof.
  intro H. unfold ticks. rewrite (nth_indep _ d (tick low high n 0)) by (rewrite map_length, seq_length; exact H).
  rewrite map_nth. f_equal. apply seq_nth. exact H.
Qed.

Lemma grid_points_length range n : length (grid_points range n) = (Nat.sqrt n * Nat.sqrt n)%nat.
Proof. unfold grid_points. rewrite square_length, linspace_ticks, ticks_length. reflexivity. Qed.
Lemma grid_points_nth range n a b d : (a < Nat.sqrt n)%nat -> (b < Nat.sqrt n)%nat ->
  nth (b * Nat.sqrt n + a) (grid_points range n) d = square_point range (Nat.sqrt n) a b.
Proof.
  intros La Lb. unfold grid_points. rewrite linspace_ticks. set (t := ticks (- range) range (Nat.sqrt n)).
  assert (length t = Nat.sqrt n) as Lt by apply ticks_length.
  rewrite <- Lt at 1. rewrite (square_nth _ t t a b 0 0) by (rewrite Lt; assumption).
  unfold t. rewrite !ticks_nth by assumption. reflexivity.
Qed.
Lemma grid_points_square range n : grid_points range n =
  flat_map (fun b => map (fun a => square_point range (Nat.sqrt n) a b) (seq 0 (Nat.sqrt n))) (seq 0 (Nat.sqrt n)).
Proof.
  unfold grid_points. rewrite linspace_ticks. unfold ticks.
  generalize (seq 0 (Nat.sqrt n)) at 2 4. intro l. induction l as [|b l IH]; [reflexivity|].
  cbn [map flat_map]. rewrite IH. f_equal. rewrite map_map. reflexivity.
Qed.
Lemma argmax_first l k : argmax l = Some k -> (k < length l)%nat /\
  (forall j, (j < length l)%nat -> nth j l 0 <= nth k l 0) /\ (forall j, (j < k)%nat -> nth j l 0 < nth k l 0).
Proof.
  unfold argmax. intro H. apply argmin_spec in H. rewrite map_length in H. destruct H as (A & B & C).
  assert (Nt : forall j, nth j (map Ropp l) 0 = - nth j l 0).
  { intro j. replace 0 with (- 0) at 1 by ring. apply (map_nth Ropp). }
  split; [exact A|]. split.
  - intros j Hj. specialize (B j Hj). rewrite !Nt in B. lra.
  - intros j Hj. specialize (C j Hj). rewrite !Nt in C. lra.
Qed.

(** ** visualize_rates: for each neighbour the greatest predicted rate of all
    points of the square, and the first place where it is reached *)
Theorem rate_maxima : forall predict (f : nat -> list R -> R) range n context,
  (forall rows, predict rows = Ok (map (fun row => [f 0%nat row; f 1%nat row; f 2%nat row]) rows)) ->
  (1 <= n)%nat -> (context = None \/ exists k, n = (k * k)%nat) ->
  let k := Nat.sqrt n in
  exists best, visualize_rates predict range n context = Ok best /\ length best = 3%nat /\
    forall i p m, nth_error best i = Some (p, m) ->
      exists a b, (a < k)%nat /\ (b < k)%nat /\ p = square_point range k a b /\ m = f i (told context p) /\
        forall a' b', (a' < k)%nat -> (b' < k)%nat ->
          f i (told context (square_point range k a' b')) <= m /\
          ((b' < b \/ b' = b /\ a' < a)%nat -> f i (told context (square_point range k a' b')) < m).
Proof.
  intros predict f range n context P Ln Cx. cbv zeta. set (k := Nat.sqrt n).
  assert (K1 : (1 <= k)%nat).
  { unfold k. pose proof (Nat.sqrt_spec n ltac:(lia)). destruct (Nat.sqrt n); lia. }
  unfold visualize_rates. set (points := grid_points range n).
  assert (Lp : length points = (k * k)%nat) by apply grid_points_length.
  assert (Ec : plot_context points n context = Ok (map (told context) points)).
  { unfold plot_context. destruct context as [c|]; [|reflexivity]. rewrite map_length, Lp.
    destruct Cx as [X|(j & Ej)]; [discriminate|].
    assert (k = j) as -> by (unfold k; rewrite Ej; apply Nat.sqrt_square).
    rewrite Ej, Nat.eqb_refl, map_map. reflexivity. }
  rewrite Ec. cbn [bind]. unfold predicted. rewrite P. cbn [bind]. rewrite !map_length, Nat.eqb_refl.
  set (rates := map (fun row => [f 0%nat row; f 1%nat row; f 2%nat row]) (map (told context) points)).
  assert (Fb : forallb (fun r : list R => (length r =? 3)%nat) rates = true).
  { apply forallb_forall. intros r Hr. unfold rates in Hr. apply in_map_iff in Hr. destruct Hr as (x & <- & _). reflexivity. }
  rewrite Fb. cbn [andb bind].
  assert (B : forall i, (i < 3)%nat -> exists p m, best_point points rates i = Ok (p, m) /\
     exists a b, (a < k)%nat /\ (b < k)%nat /\ p = square_point range k a b /\ m = f i (told context p) /\
        forall a' b', (a' < k)%nat -> (b' < k)%nat ->
          f i (told context (square_point range k a' b')) <= m /\
          ((b' < b \/ b' = b /\ a' < a)%nat -> f i (told context (square_point range k a' b')) < m)).
  { intros i Hi. unfold best_point.
    assert (Ef : map (fun r => nth i r 0) rates = map (fun p => f i (told context p)) points).
    { unfold rates. rewrite !map_map. apply map_ext. intro p. destruct i as [|[|[|]]]; [reflexivity..|lia]. }
    rewrite Ef. set (g := fun p => f i (told context p)).
    destruct (argmax (map g points)) as [j|] eqn:Ej.
    2:{ exfalso. unfold argmax in Ej. apply argmin_None in Ej. apply map_eq_nil in Ej. apply map_eq_nil in Ej.
        rewrite Ej in Lp. cbn in Lp. nia. }
    apply argmax_first in Ej. destruct Ej as (A & Bm & Cm). rewrite map_length, Lp in A, Bm.
    assert (Gn : forall a b, (a < k)%nat -> (b < k)%nat -> nth (b * k + a) (map g points) 0 = g (square_point range k a b)).
    { intros a b La Lb. rewrite (nth_indep _ 0 (g pzero)) by (rewrite map_length, Lp; nia). rewrite map_nth.
      f_equal. apply grid_points_nth; assumption. }
    set (a := (j mod k)%nat). set (b := (j / k)%nat).
    assert (Ej : j = (b * k + a)%nat) by (unfold a, b; rewrite Nat.mul_comm; apply Nat.div_mod; lia).
    assert (La : (a < k)%nat) by (apply Nat.mod_upper_bound; lia).
    assert (Lb : (b < k)%nat) by (apply Nat.div_lt_upper_bound; lia).
    exists (square_point range k a b), (g (square_point range k a b)).
    split.
    { rewrite Ej, Gn by assumption. f_equal. f_equal. apply grid_points_nth; assumption. }
    exists a, b. repeat (split; [assumption || reflexivity|]). intros a' b' La' Lb'. split.
    - specialize (Bm (b' * k + a')%nat). rewrite Ej in Bm. rewrite !Gn in Bm by assumption. apply Bm. nia.
    - intro Lt. specialize (Cm (b' * k + a')%nat). rewrite Ej in Cm. rewrite !Gn in Cm by assumption. apply Cm. nia. }
  destruct (B 0%nat ltac:(lia)) as (p0 & m0 & E0 & H0). destruct (B 1%nat ltac:(lia)) as (p1 & m1 & E1 & H1).
  destruct (B 2%nat ltac:(lia)) as (p2 & m2 & E2 & H2).
  cbn [seq map_res]. rewrite E0, E1, E2. cbn [bind]. eexists. split; [reflexivity|]. split; [reflexivity|].
  intros i p m Hi. destruct i as [|[|[|i]]]; cbn in Hi; try (destruct i; discriminate);
    (assert (p = p0 /\ m = m0 \/ p = p1 /\ m = m1 \/ p = p2 /\ m = m2) by (clear -Hi; intuition congruence));
    congruence || (injection Hi as <- <-; assumption).
Qed.
Print Assumptions rate_maxima.

(** with a fixed context the number of points must be a square *)
Theorem rate_visual_errors : forall predict range n context,
  (forall c, context = Some c -> (forall k, n <> k * k)%nat -> visualize_rates predict range n context = Raise ValueError) /\
  (forall rates, n = 0%nat -> predict [] = Ok rates -> visualize_rates predict range n context = Raise ValueError) /\
  (forall rows rates, (forall c, context = Some c -> exists k, n = k * k)%nat ->
    rows = map (told context) (flat_map (fun b => map (fun a => square_point range (Nat.sqrt n) a b) (seq 0 (Nat.sqrt n))) (seq 0 (Nat.sqrt n))) ->
    predict rows = Ok rates -> (exists rate, In rate rates /\ length rate <> 3%nat) ->
    visualize_rates predict range n context = Raise ValueError) /\
  (forall rows e, (forall c, context = Some c -> exists k, n = k * k)%nat ->
    rows = map (told context) (flat_map (fun b => map (fun a => square_point range (Nat.sqrt n) a b) (seq 0 (Nat.sqrt n))) (seq 0 (Nat.sqrt n))) ->
    predict rows = Raise e -> visualize_rates predict range n context = Raise e).
Proof.
  intros predict range n context.
  assert (Ec : (forall c, context = Some c -> exists k, n = k * k)%nat ->
    plot_context (grid_points range n) n context = Ok (map (told context) (flat_map (fun b => map (fun a => square_point range (Nat.sqrt n) a b) (seq 0 (Nat.sqrt n))) (seq 0 (Nat.sqrt n))))).
  { intro Sq. rewrite <- grid_points_square. unfold plot_context. destruct context as [c|]; [|reflexivity].
    rewrite map_length, grid_points_length. destruct (Sq c eq_refl) as (k & Ek).
    rewrite Ek at 1. replace (Nat.sqrt n) with k by (rewrite Ek; symmetry; apply Nat.sqrt_square).
    rewrite Nat.eqb_refl, map_map. reflexivity. }
  split; [|split; [|split]].
  - intros c -> Nk. unfold visualize_rates, plot_context. rewrite map_length, grid_points_length.
    destruct (n =? Nat.sqrt n * Nat.sqrt n)%nat eqn:E; [|reflexivity]. apply Nat.eqb_eq in E. contradiction (Nk _ E).
  - intros rates -> P. unfold visualize_rates.
    assert (grid_points range 0 = []) as -> by reflexivity.
    assert (plot_context [] 0 context = Ok []) as -> by (destruct context; reflexivity). cbn [bind].
    unfold predicted. rewrite P. cbn [bind]. destruct rates; reflexivity.
  - intros rows rates Sq -> P (rate & Hr & Lr). unfold visualize_rates. rewrite (Ec Sq). cbn [bind]. unfold predicted. rewrite P. cbn [bind].
    destruct (forallb (fun r : list R => (length r =? 3)%nat) rates) eqn:Ef; [|rewrite andb_false_r; reflexivity].
    exfalso. rewrite forallb_forall in Ef. apply Lr, Nat.eqb_eq, Ef, Hr.
  - intros rows e Sq -> P. unfold visualize_rates. rewrite (Ec Sq). cbn [bind]. unfold predicted. rewrite P. reflexivity.
Qed.
Print Assumptions rate_visual_errors.

(** the default number of points is the square of 200; a predictor that looks at
    the last column only, with a context of three numbers *)
Example rate_visual_nonvacuous : (Nat.pow 200 2 = 200 * 200)%nat /\
  exists predict f, (forall rows, predict rows = Ok (map (fun row => [f 0%nat row; f 1%nat row; f 2%nat row]) rows)) /\
    f 1%nat (told (Some [1; 2; 3]) (mkpt 4 5)) = 5 /\ f 2%nat (told (Some [1; 2; 3]) (mkpt 4 5)) = 10.
Proof.
  split; [reflexivity|].
  exists (fun rows => Ok (map (fun row => [INR 0 * last row 0; INR 1 * last row 0; INR 2 * last row 0]) rows)), (fun i row => INR i * last row 0).
  split; [reflexivity|]. cbn. lra.
Qed.

(** ** visualize_data *)
Lemma label_named i l : named i l <-> state_label i = l /\ (i <= 3)%nat.
Proof.
  unfold named. destruct i as [|[|[|[|i]]]]; cbn; try (split; [intro H; split; [congruence|lia]|intros [<- _]; reflexivity]).
  split; [destruct i; discriminate|intros [_ H]; lia].
Qed.
Definition in_state (i : nat) (rows : list (Z * pt * R)) := filter (fun r => Z.eqb (fst (fst r)) (Z.of_nat i)) rows.

(** every row with one of the states is shown once, under the name of its state;
    the opacity is its share of the longest dwell time *)
Theorem data_plot : forall rows num_states top, (num_states <= 3)%nat -> greatest (map snd rows) top ->
  exists groups, visualize_data rows num_states = Ok groups /\ NoDup (map fst groups) /\
    (forall label shown, In (label, shown) groups -> exists i, (i <= num_states)%nat /\ named i label /\
      shown <> [] /\ shown = map (fun r => (snd (fst r), snd r / top))
        (filter (fun r => Z.eqb (fst (fst r)) (Z.of_nat i)) rows)) /\
    (forall row i label, In row rows -> fst (fst row) = Z.of_nat i -> (i <= num_states)%nat -> named i label ->
      exists shown, In (label, shown) groups /\ In (snd (fst row), snd row / top) shown).
Proof.
  intros rows ns top Ln Gt. unfold visualize_data.
  assert (Et : fold_left Rmax (map snd rows) (match rows with [] => 0 | r :: _ => snd r end) = top).
  { destruct rows as [|r rows]; [destruct (proj1 Gt)|]. cbn [map].
    destruct (fold_max_greatest (snd r :: map snd rows) (snd r)) as (I & M). destruct Gt as (It & Mt).
    apply Rle_antisym.
    - apply Mt. destruct I as [I|I]; [rewrite <- I; left; reflexivity|exact I].
    - apply M. right. exact It. }
  rewrite Et.
  set (grp := fun i => match in_state i rows with
    | [] => []
    | _ => [(state_label i, map (fun r : Z * pt * R => (snd (fst r), snd r / top)) (in_state i rows))] end).
  assert (Em : map_res (fun i => match in_state i rows with
      | [] => Ok []
      | _ => if String.eqb (state_label i) "" then Raise AssertionError
             else Ok [(state_label i, map (fun r : Z * pt * R => (snd (fst r), snd r / top)) (in_state i rows))] end)
      (seq 0 (ns + 1)) = Ok (map grp (seq 0 (ns + 1)))).
  { apply map_res_map. intros i Hi. apply in_seq in Hi. unfold grp. destruct (in_state i rows); [reflexivity|].
    destruct i as [|[|[|[|i]]]]; try reflexivity. lia. }
  unfold in_state in Em at 1 2. rewrite Em. cbn [bind]. rewrite concat_map_flat.
  eexists. split; [reflexivity|].
  assert (Mem : forall label shown, In (label, shown) (flat_map grp (seq 0 (ns + 1))) <->
    exists i, (i <= ns)%nat /\ state_label i = label /\ in_state i rows <> [] /\
      shown = map (fun r : Z * pt * R => (snd (fst r), snd r / top)) (in_state i rows)).
  { intros label shown. rewrite in_flat_map. split.
    - intros (i & Hi & H). apply in_seq in Hi. exists i. split; [lia|]. unfold grp in H.
      destruct (in_state i rows) as [|r l] eqn:Er; [destruct H|]. destruct H as [H|[]]. split; [congruence|].
      split; [discriminate|congruence].
    - intros (i & Hi & <- & Ne & ->). exists i. split; [apply in_seq; lia|]. unfold grp.
      destruct (in_state i rows) eqn:Er; [congruence|left; reflexivity]. }
  split; [|split].
  - assert (Inj : forall i j, (i <= 3)%nat -> (j <= 3)%nat -> state_label i = state_label j -> i = j).
    { intros i j Hi Hj X. destruct i as [|[|[|[|i]]]], j as [|[|[|[|j]]]]; try lia; discriminate X || reflexivity. }
    assert (Gen : forall l, NoDup l -> (forall i, In i l -> (i <= 3)%nat) -> NoDup (map fst (flat_map grp l))).
    { induction l as [|i l IH]; intros Nd B; [constructor|]. inversion Nd; subst. cbn [flat_map].
      assert (Nl : NoDup (map fst (flat_map grp l))) by (apply IH; [assumption|intros; apply B; right; assumption]).
      unfold grp at 1. destruct (in_state i rows) as [|r rr]; [exact Nl|]. cbn [app map fst]. constructor; [|exact Nl].
      intro H. apply in_map_iff in H. destruct H as ((lb & sh) & Elb & H). cbn [fst] in Elb. subst lb.
      apply in_flat_map in H. destruct H as (j & Hj & H). unfold grp in H. destruct (in_state j rows); [destruct H|].
      destruct H as [H|[]]. assert (state_label j = state_label i) as X by congruence.
      apply Inj in X; [subst j; contradiction|apply B; right; exact Hj|apply B; left; reflexivity]. }
    apply Gen; [apply seq_NoDup|]. intros i Hi. apply in_seq in Hi. lia.
  - intros label shown H. apply Mem in H. destruct H as (i & Hi & El & Ne & ->). exists i. split; [exact Hi|].
    split; [apply label_named; split; [exact El|lia]|]. split; [|reflexivity].
    intro X. apply map_eq_nil in X. contradiction.
  - intros row i label Hr Es Hi Nm. apply label_named in Nm. destruct Nm as (El & _).
    assert (Hin : In row (in_state i rows)) by (apply filter_In; split; [exact Hr|apply Z.eqb_eq; exact Es]).
    exists (map (fun r : Z * pt * R => (snd (fst r), snd r / top)) (in_state i rows)). split.
    + apply Mem. exists i. split; [exact Hi|]. split; [exact El|]. split; [|reflexivity]. intro X. rewrite X in Hin. destruct Hin.
    + apply in_map_iff. exists row. split; [reflexivity|exact Hin].
Qed.
Print Assumptions data_plot.

(** a fourth state is an error as soon as it occurs *)
Theorem data_plot_errors : forall rows num_states,
  (visualize_data rows num_states = Raise AssertionError <->
   exists row, In row rows /\ (4 <= fst (fst row) <= Z.of_nat num_states)%Z) /\
  (visualize_data rows num_states = Raise AssertionError \/ exists groups, visualize_data rows num_states = Ok groups).
Proof.
  intros rows ns. unfold visualize_data.
  set (top := fold_left Rmax _ _).
  match goal with |- context [map_res ?h (seq 0 (ns + 1))] => set (f := h) end.
  assert (Gen : forall l, 
    ((exists i, In i l /\ f i = Raise AssertionError) /\ map_res f l = Raise AssertionError) \/
    ((~ exists i, In i l /\ f i = Raise AssertionError) /\ exists gs, map_res f l = Ok gs)).
  { induction l as [|i l IH]; [right; split; [intros (i & [] & _)|eexists; reflexivity]|].
    cbn [map_res]. assert (f i = Raise AssertionError \/ exists x, f i = Ok x) as [Fi|(x & Fi)].
    { unfold f. cbv zeta. destruct (filter _ rows); [right; eexists; reflexivity|]. destruct (String.eqb _ _); [left; reflexivity|right; eexists; reflexivity]. }
    - left. rewrite Fi. split; [|reflexivity]. exists i. split; [left; reflexivity|exact Fi].
    - rewrite Fi. cbn [bind]. destruct IH as [((j & Hj & Fj) & ->) | (Nx & gs & ->)].
      + left. split; [|reflexivity]. exists j. split; [right; exact Hj|exact Fj].
      + right. cbn [bind]. split; [|eexists; reflexivity]. intros (j & [<-|Hj] & Fj); [congruence|]. apply Nx. eauto. }
  assert (Ch : (exists i, In i (seq 0 (ns + 1)) /\ f i = Raise AssertionError) <->
     exists row, In row rows /\ (4 <= fst (fst row) <= Z.of_nat ns)%Z).
  { split.
    - intros (i & Hi & Fi). apply in_seq in Hi. unfold f in Fi. cbv zeta in Fi.
      destruct (filter (fun r : Z * pt * R => Z.eqb (fst (fst r)) (Z.of_nat i)) rows) as [|r l] eqn:Er; [discriminate|].
      assert (In r (filter (fun r : Z * pt * R => Z.eqb (fst (fst r)) (Z.of_nat i)) rows)) as Hr by (rewrite Er; left; reflexivity).
      apply filter_In in Hr. destruct Hr as (Hr & Es). apply Z.eqb_eq in Es. exists r. split; [exact Hr|]. rewrite Es.
      assert (4 <= i)%nat; [|lia]. destruct i as [|[|[|[|i]]]]; try discriminate Fi. lia.
    - intros (row & Hr & B). exists (Z.to_nat (fst (fst row))). split; [apply in_seq; lia|]. unfold f. cbv zeta.
      destruct (filter _ rows) as [|r l] eqn:Er.
      + exfalso. assert (In row []) as []. rewrite <- Er. apply filter_In. split; [exact Hr|]. apply Z.eqb_eq. lia.
      + destruct (Z.to_nat (fst (fst row))) as [|[|[|[|i]]]] eqn:Ei; try lia. reflexivity. }
  destruct (Gen (seq 0 (ns + 1))) as [(Ex & Em) | (Nx & gs & Em)]; rewrite Em; cbn [bind].
  - split; [|left; reflexivity]. split; [intros _; apply Ch; exact Ex|reflexivity].
  - split; [|right; eexists; reflexivity]. split; [discriminate|]. intro H. apply Ch in H. contradiction.
Qed.
Print Assumptions data_plot_errors.

Example data_plot_nonvacuous : greatest (map snd [((1%Z, pzero), 2); ((0%Z, pzero), 3 : R)]) 3.
Proof. split; [right; left; reflexivity|]. cbn. intros y [<-|[<-|[]]]; lra. Qed.
