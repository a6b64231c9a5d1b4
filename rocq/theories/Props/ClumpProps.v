(** Merging clumps (C65) and copying atomic numbers (C66). *)
From Coq Require Import Reals ZArith List Bool Lia Lra Arith Permutation.
From Verif Require Import Base.Prelude Model.Alignment Spec.Aligning Spec.Merging Spec.Clumps
  Proofs.BaseFacts Proofs.RateFacts Proofs.AlignFacts Proofs.MergeFacts Proofs.ClumpFacts.
Import ListNotations.
Open Scope R_scope.

Definition ones (coords : list pt) : list R := repeat 1 (length coords).

(** C65: what a call does, for every way of enumerating cliques *)
Theorem clique_merge_clumping find coords r n counts : cliques_ok find ->
  clumping r n (coords, match counts with Some c => c | None => ones coords end) (clique_merge find coords r n counts).
Proof. intros K. apply clique_loop_clumping; auto. Qed.
Print Assumptions clique_merge_clumping.

(** C65: points that are all apart are returned as they are *)
Theorem clique_merge_apart find coords r n counts :
  (forall i j p q, i <> j -> nth_error coords i = Some p -> nth_error coords j = Some q -> r < pdist p q) ->
  clique_merge find coords r n counts = (coords, match counts with Some c => c | None => ones coords end).
Proof.
  intros K. unfold clique_merge. destruct n; [reflexivity|]. cbn [clique_loop].
  assert (E : query_pairs coords r = []).
  { apply query_pairs_nil. intros i j N (Hi & Hj & D).
    specialize (K i j _ _ N (nth_error_nth' _ pzero Hi) (nth_error_nth' _ pzero Hj)). lra. }
  rewrite E. reflexivity.
Qed.
Print Assumptions clique_merge_apart.

Lemma ones_pos coords i : (i < length coords)%nat -> 0 < nth i (ones coords) 0.
Proof.
  intros H. assert (E : nth i (ones coords) 0 = 1); [|rewrite E; lra]. 
  unfold ones. revert i H. induction (length coords) as [|n IH]; intros [|i] H; cbn; try lia; auto. apply IH; lia.
Qed.
(** C65: merged points lie in every half plane that holds the points *)
Theorem clique_merge_inside find coords r n : cliques_ok find -> forall a b c,
  (forall p, In p coords -> a * px p + b * py p <= c) ->
  forall p, In p (fst (clique_merge find coords r n None)) -> a * px p + b * py p <= c.
Proof.
  intros K a b c H p Hp.
  assert (C := clique_merge_clumping find coords r n None K).
  exact (clumping_lin _ _ _ _ C (mkpt a b) c (ones_pos coords) H p Hp).
Qed.
Print Assumptions clique_merge_inside.
(** in particular in their bounding box *)
Theorem clique_merge_in_box find coords r n x0 x1 y0 y1 : cliques_ok find ->
  (forall p, In p coords -> x0 <= px p <= x1 /\ y0 <= py p <= y1) ->
  forall p, In p (fst (clique_merge find coords r n None)) -> x0 <= px p <= x1 /\ y0 <= py p <= y1.
Proof.
  intros K H p Hp.
  assert (H1 := clique_merge_inside find coords r n K 1 0 x1 ltac:(intros q Hq; destruct (H q Hq); lra) p Hp).
  assert (H2 := clique_merge_inside find coords r n K (-1) 0 (- x0) ltac:(intros q Hq; destruct (H q Hq); lra) p Hp).
  assert (H3 := clique_merge_inside find coords r n K 0 1 y1 ltac:(intros q Hq; destruct (H q Hq); lra) p Hp).
  assert (H4 := clique_merge_inside find coords r n K 0 (-1) (- y0) ltac:(intros q Hq; destruct (H q Hq); lra) p Hp).
  lra.
Qed.
Print Assumptions clique_merge_in_box.

Lemma rsum_ones n : rsum (repeat 1 n) = INR n.
Proof. induction n; [reflexivity|]. cbn [repeat]. rewrite S_INR. unfold rsum in *. cbn. rewrite IHn. lra. Qed.
(** C65: no point gets lost; points may be counted several times *)
Theorem clique_merge_counts find coords r n : cliques_ok find ->
  let '(merged, counts) := clique_merge find coords r n None in
  length counts = length merged /\ INR (length coords) <= rsum counts.
Proof.
  intros K. assert (C := clique_merge_clumping find coords r n None K).
  destruct (clique_merge find coords r n None) as [merged counts].
  destruct (clumping_count _ _ _ _ C) as [A B].
  - cbn. unfold ones. rewrite repeat_length. auto.
  - exact (ones_pos coords).
  - split; auto. cbn in A. unfold ones in A. rewrite rsum_ones in A. auto.
Qed.
Print Assumptions clique_merge_counts.

(** C65: if being near is transitive a round conserves points and centroid *)
Lemma nth_build (f : nat -> R) n i : (i < n)%nat -> nth i (map f (seq 0 n)) 0 = f i.
Proof. intros H. rewrite (nth_map_in f (seq 0 n) i 0%nat) by (rewrite seq_length; auto). rewrite seq_nth by auto. reflexivity. Qed.
Lemma rsum_map_ext {A} (f g : A -> R) l : (forall x, In x l -> f x = g x) -> rsum (map f l) = rsum (map g l).
Proof. intros K. f_equal. apply map_ext_in. auto. Qed.
Lemma lin_centre u coords counts c : total counts c <> 0 ->
  total counts c * lin u (centre coords counts c) = rsum (map (fun i => nth i counts 0 * lin u (nth i coords pzero)) c).
Proof.
  intros N. unfold centre. rewrite lin_scale, <- Rmult_assoc, Rinv_r, Rmult_1_l by auto. clear N.
  induction c as [|i c IH]; cbn [map psum fold_right rsum]; [unfold lin; cbn; lra|].
  rewrite lin_add, lin_scale. unfold psum, rsum in IH. rewrite IH. reflexivity.
Qed.
Theorem clique_merge_conserves find coords r : cliques_ok find ->
  (forall i j k, near coords r i j -> near coords r j k -> i <> k -> near coords r i k) ->
  let '(merged, counts) := clique_merge find coords r 1 None in
  rsum counts = INR (length coords) /\
  psum (map (fun pc => pscale (snd pc) (fst pc)) (combine merged counts)) = psum coords.
Proof.
  intros K Tr. unfold clique_merge. cbn [clique_loop].
  assert (Lin : forall l, (forall u, lin u (psum l) = rsum (map (lin u) l))).
  { intros l u. induction l as [|p l IH]; cbn [map psum rsum fold_right]; [unfold lin; cbn; lra|].
    rewrite lin_add. unfold psum, rsum in IH. rewrite IH. reflexivity. }
  assert (Ext : forall p q, (forall u, lin u p = lin u q) -> p = q).
  { intros p q H. pose proof (H (mkpt 1 0)) as H1. pose proof (H (mkpt 0 1)) as H2. unfold lin in *. cbn in *. apply pt_eq; lra. }
  assert (One : forall i, (i < length coords)%nat -> nth i (ones coords) 0 = 1).
  { intros i H. unfold ones. revert i H. induction (length coords) as [|n IH]; intros [|i] H; cbn; try lia; auto. apply IH; lia. }
  assert (Coords : forall (f : pt -> R), map f coords = map (fun i => f (nth i coords pzero)) (seq 0 (length coords))).
  { intro f. clear. induction coords as [|p l IH]; auto. cbn [length seq map nth]. f_equal. rewrite IH, <- seq_shift, map_map. reflexivity. }
  fold (ones coords).
  destruct (query_pairs coords r) as [|e es] eqn:E.
  - split; [apply rsum_ones|]. f_equal. unfold ones. clear.
    induction coords as [|p l IH]; cbn; auto. f_equal; auto. apply pt_eq; cbn; lra.
  - rewrite <- E. pose proof (found_clumps find coords r K) as All.
    set (cs := find (length coords) (query_pairs coords r)) in *.
    assert (Sd : forall c, In c cs -> NoDup c /\ forall i, In i c -> (i < length coords)%nat).
    { intros c Hc. destruct All as (Sd & _). destruct (Sd c Hc) as (_ & Nd & B & _). auto. }
    assert (Tp : forall c, In c cs -> total (ones coords) c <> 0).
    { intros c Hc. destruct All as (Sd' & _). destruct (Sd' c Hc) as (N & _ & B & _).
      pose proof (total_pos (ones coords) c (length coords) N B (ones_pos coords)). lra. }
    assert (T1 : forall i, In i (seq 0 (length coords)) -> INR (times i cs) = 1).
    { intros i Hi. apply in_seq in Hi. rewrite (times_one coords r cs i); auto; lia. }
    split.
    + change (count_clique (ones coords)) with (total (ones coords)).
      rewrite (total_times (ones coords) (length coords) cs Sd).
      rewrite (rsum_map_ext _ (fun _ => 1)).
      2:{ intros i Hi. rewrite (T1 i Hi), One; [lra|]. apply in_seq in Hi. lia. }
      assert (Q : forall (l : list nat), rsum (map (fun _ => 1) l) = INR (length l)).
      { induction l as [|x l IH]; [reflexivity|]. cbn [map length]. rewrite S_INR. unfold rsum in *. cbn. rewrite IH. lra. }
      rewrite Q, seq_length. reflexivity.
    + apply Ext. intro u. rewrite !Lin. rewrite (Coords (lin u)).
      change (count_clique (ones coords)) with (total (ones coords)).
      assert (Q : map (lin u) (map (fun pc : pt * R => pscale (snd pc) (fst pc)) (combine (map (merge_clique coords (ones coords)) cs) (map (total (ones coords)) cs)))
                = map (fun c => total (ones coords) c * lin u (centre coords (ones coords) c)) cs).
      { clear. induction cs as [|c cs IH]; cbn; auto. rewrite lin_scale, merge_clique_centre. f_equal; auto. }
      rewrite Q.
      set (w := map (fun i => nth i (ones coords) 0 * lin u (nth i coords pzero)) (seq 0 (length coords))).
      assert (Q2 : rsum (map (fun c => total (ones coords) c * lin u (centre coords (ones coords) c)) cs) = rsum (map (total w) cs)).
      { apply rsum_map_ext. intros c Hc. rewrite lin_centre by auto. unfold total. apply rsum_map_ext.
        intros i Hi. unfold w. rewrite nth_build; auto. apply Sd with (c := c); auto. }
      rewrite Q2, (total_times w (length coords) cs Sd). apply rsum_map_ext.
      intros i Hi. rewrite (T1 i Hi). apply in_seq in Hi. unfold w. rewrite nth_build by lia. rewrite One by lia. lra.
Qed.
Print Assumptions clique_merge_conserves.

(** C65, refuted: counts are conserved.  Three points in a row, the middle one
    near both others: *)
Theorem clique_merge_conserves_refuted :
  cliques_ok find_by_search /\
  let '(merged, counts) := clique_merge find_by_search [mkpt 0 0; mkpt 1 0; mkpt 2 0] 1 1 None in
  rsum counts = 4 /\ merged = [mkpt (1 / 2) 0; mkpt (3 / 2) 0].
Proof.
  split; [apply find_by_search_ok|].
  assert (D : forall a b r, pdist (mkpt a 0) (mkpt b 0) <= r <-> Rabs (a - b) <= r).
  { intros a b r. unfold pdist, pnorm, psub. cbn. replace ((a - b) * ((a - b) * 1) + (0 - 0) * ((0 - 0) * 1)) with (Rsqr (a - b)) by (unfold Rsqr; ring).
    unfold psq. cbn. replace ((a - b) * (a - b) + (0 - 0) * (0 - 0)) with (Rsqr (a - b)) by (unfold Rsqr; ring).
    rewrite sqrt_Rsqr_abs. tauto. }
  assert (Qp : query_pairs [mkpt 0 0; mkpt 1 0; mkpt 2 0] 1 = [(0, 1); (1, 2)]%nat).
  { unfold query_pairs. cbn [length seq Nat.sub flat_map nth app].
    replace (Rleb (pdist (mkpt 0 0) (mkpt 1 0)) 1) with true by (symmetry; apply Rleb_true, D; rewrite Rabs_left; lra).
    replace (Rleb (pdist (mkpt 1 0) (mkpt 2 0)) 1) with true by (symmetry; apply Rleb_true, D; rewrite Rabs_left; lra).
    replace (Rleb (pdist (mkpt 0 0) (mkpt 2 0)) 1) with false; [reflexivity|].
    symmetry. apply Rleb_false. apply Rnot_le_lt. intro Q. apply D in Q. rewrite Rabs_left in Q; lra. }
  unfold clique_merge. cbn [clique_loop]. rewrite Qp.
  replace (find_by_search (length [mkpt 0 0; mkpt 1 0; mkpt 2 0]) [(0%nat, 1%nat); (1%nat, 2%nat)]) with [[0; 1]; [1; 2]]%nat by reflexivity.
  cbn. split; [lra|]. f_equal; [|f_equal]; apply pt_eq; cbn; field.
Qed.
Print Assumptions clique_merge_conserves_refuted.
(** ... and a pair far from a third point meets the hypotheses of the theorem above *)
Example clique_merge_nonvacuous :
  let coords := [mkpt 0 0; mkpt 1 0; mkpt 9 0] in
  cliques_ok find_by_search /\ near coords 1 0 1 /\
  forall i j k, near coords 1 i j -> near coords 1 j k -> i <> k -> near coords 1 i k.
Proof.
  intros coords. split; [apply find_by_search_ok|].
  assert (D01 : pdist (mkpt 0 0) (mkpt 1 0) <= 1) by (apply pdist_le_sq; [lra|]; unfold psq; cbn; lra).
  assert (Far : forall p q, 1 < psq (psub p q) -> ~ pdist p q <= 1).
  { intros p q H Q. apply pdist_le_sq in Q; lra. }
  assert (N02 : ~ pdist (mkpt 0 0) (mkpt 9 0) <= 1) by (apply Far; unfold psq; cbn; lra).
  assert (N12 : ~ pdist (mkpt 1 0) (mkpt 9 0) <= 1) by (apply Far; unfold psq; cbn; lra).
  assert (N20 : ~ pdist (mkpt 9 0) (mkpt 0 0) <= 1) by (apply Far; unfold psq; cbn; lra).
  assert (N21 : ~ pdist (mkpt 9 0) (mkpt 1 0) <= 1) by (apply Far; unfold psq; cbn; lra).
  split; [split; [cbn; lia|split; [cbn; lia|exact D01]]|].
  intros i j k (Hi & Hj & Dij) (_ & Hk & Djk) N. split; auto. split; auto.
  unfold coords in *.
  destruct i as [|[|[|i]]]; cbn in Hi; try lia; destruct j as [|[|[|j]]]; cbn in Hj; try lia;
    destruct k as [|[|[|k]]]; cbn in Hk; try lia; cbn [nth] in *; auto; try congruence; contradiction.
Qed.

(** * C66 *)
Lemma assign_None {A} (a : list A) pairs : assign a pairs = None <-> exists iv, In iv pairs /\ (length a <= fst iv)%nat.
Proof.
  revert a; induction pairs as [|[i v] pairs IH]; intros a; cbn [assign].
  - split; [discriminate|]. intros (iv & [] & _).
  - destruct (Nat.ltb_spec i (length a)) as [H|H].
    + rewrite IH, upd_length. split.
      * intros (iv & Hi & L). exists iv. split; [right|]; auto.
      * intros (iv & [<-|Hi] & L); [cbn in L; lia|]. exists iv. auto.
    + split; auto. intros _. exists (i, v). split; [left; auto|]. auto.
Qed.
Definition named (j : nat) (pairs : list (nat * Z)) : list Z := map snd (filter (fun iv => Nat.eqb (fst iv) j) pairs).
Lemma last_cons_default {A} (x : A) l d : last (x :: l) d = last l x.
Proof.
  revert x d; induction l as [|y l IH]; intros x d; [reflexivity|].
  change (last (y :: l) d = last (y :: l) x). rewrite (IH y d), (IH y x). reflexivity.
Qed.
Lemma assign_Some (a : list Z) pairs l : assign a pairs = Some l ->
  length l = length a /\ forall j d, (j < length a)%nat -> nth j l d = last (named j pairs) (nth j a d).
Proof.
  revert a; induction pairs as [|[i v] pairs IH]; intros a; cbn [assign].
  - intros E. injection E as <-. auto.
  - destruct (Nat.ltb_spec i (length a)) as [H|H]; [|discriminate]. intros E. apply IH in E as [L K]. rewrite upd_length in *.
    split; auto. intros j d Hj. rewrite K by auto. unfold named. cbn [filter fst].
    destruct (Nat.eqb_spec i j).
    + subst. rewrite nth_upd_same by auto. cbn [map snd]. rewrite last_cons_default. reflexivity.
    + rewrite nth_upd_other by auto. reflexivity.
Qed.
Lemma closest_pairs_candidates original merged numbers threshold j : merged <> [] ->
  candidates merged threshold j (combine original numbers)
    (named j (closest_pairs (map Some original) (map Some merged) numbers threshold)).
Proof.
  intros N. unfold closest_pairs. revert numbers.
  induction original as [|p original IH]; intros [|z numbers]; cbn [map combine flat_map]; try apply candidates_nil.
  specialize (IH numbers). cbn [fst snd]. rewrite vdist_row, nan_argmin_Some.
  destruct (argmin_Some (map (pdist p) merged)) as (i & Ei); [destruct merged; [contradiction|discriminate]|].
  rewrite Ei. apply argmin_nearest_at in Ei as [Ni Li]. rewrite nth_map_Some by auto. cbn [vdist nan_ltb].
  destruct (Rltb (pdist p (nth i merged pzero)) threshold) eqn:E; rb; cbn [app].
  - unfold named. cbn [filter fst]. destruct (Nat.eqb_spec i j).
    + subst. cbn [map snd]. apply candidates_yes; auto.
    + apply candidates_no; auto. intros [Nj _]. apply n. eapply nearest_at_fun; eauto.
  - apply candidates_no; auto. intros [Nj Q]. rewrite <- (nearest_at_fun _ _ _ _ Ni Nj) in Q. lra.
Qed.
Lemma candidates_fun merged threshold j atoms zs zs' :
  candidates merged threshold j atoms zs -> candidates merged threshold j atoms zs' -> zs = zs'.
Proof.
  intros H; revert zs'. induction H; intros zs' H'; inversion H'; subst; auto; try (exfalso; tauto).
  f_equal; auto.
Qed.
Lemma candidates_in_range merged threshold j atoms zs : candidates merged threshold j atoms zs -> zs <> [] -> (j < length merged)%nat.
Proof.
  induction 1; intros N; auto; [congruence|]. destruct H as (q & Hq & _). eapply nth_error_lt; eauto.
Qed.
Lemma named_in j pairs z : In z (named j pairs) <-> In (j, z) pairs.
Proof.
  unfold named. rewrite in_map_iff. split.
  - intros ((i & v) & <- & H). apply filter_In in H as [H E]. cbn in E. apply Nat.eqb_eq in E. subst. auto.
  - intros H. exists (j, z). split; auto. apply filter_In. split; auto. cbn. apply Nat.eqb_refl.
Qed.

(** the numbers before the original's are copied *)
Definition initial_numbers (merged : list pt) (given : option (list Z)) (default : Z) : list Z :=
  match given with Some l => l | None => repeat default (length merged) end.
Theorem propagate_atomic_numbers_spec original merged numbers given default threshold :
  let result := propagate_atomic_numbers (map Some original) (map Some merged) numbers given default threshold in
  let start := initial_numbers merged given default in
  (merged = [] -> result = Raise ValueError) /\
  (merged <> [] -> length numbers <> length original -> result = Raise IndexError) /\
  (merged <> [] -> length numbers = length original ->
    (* an atom names an entry that the given array does not have *)
    (result = Raise IndexError /\ exists j z zs, candidates merged threshold j (combine original numbers) (z :: zs) /\ (length start <= j)%nat) \/
    (exists l, result = Ok l /\ length l = length start /\
       (forall j z zs, candidates merged threshold j (combine original numbers) (z :: zs) -> (j < length start)%nat) /\
       forall j z, nth_error l j = Some z -> exists zs, candidates merged threshold j (combine original numbers) zs /\
         z = last zs (nth j start 0%Z))).
Proof.
  intros result start. unfold result, propagate_atomic_numbers. split; [|split].
  - intros ->. reflexivity.
  - intros N L. destruct merged as [|m merged']; [congruence|]. cbn [map]. rewrite map_length.
    replace (length numbers =? length original)%nat with false by (symmetry; apply Nat.eqb_neq; auto). reflexivity.
  - intros N L. destruct merged as [|m merged']; [congruence|]. cbn [map]. rewrite map_length.
    replace (length numbers =? length original)%nat with true by (symmetry; apply Nat.eqb_eq; auto). cbn [negb].
    set (mg := m :: merged') in *. change (Some m :: map Some merged') with (map Some mg).
    match goal with |- context [assign ?a _] =>
      replace a with start by (unfold start, initial_numbers; destruct given; auto; rewrite map_length; reflexivity) end.
    assert (C := fun j => closest_pairs_candidates original mg numbers threshold j N).
    set (pairs := closest_pairs (map Some original) (map Some mg) numbers threshold) in *.
    destruct (assign start pairs) as [l|] eqn:E.
    + right. exists l. split; auto. assert (E' := E). apply assign_Some in E as [Ll K]. split; auto. split.
      * intros j z zs Hc. destruct (lt_dec j (length start)) as [|Nj]; auto. exfalso.
        assert (Q : assign start pairs = None).
        { apply assign_None. exists (j, z). split; [|cbn; lia]. apply named_in.
          rewrite (candidates_fun _ _ _ _ _ _ (C j) Hc). left; auto. }
        congruence.
      * intros j z Hz. assert (Hj : (j < length start)%nat) by (rewrite <- Ll; eapply nth_error_lt; eauto).
        exists (named j pairs). split; [apply C|]. rewrite <- K by auto. symmetry. apply nth_error_nth_default. auto.
    + left. split; auto. apply assign_None in E as ((j & z) & Hp & Lj). cbn in Lj. apply named_in in Hp.
      destruct (named j pairs) as [|z0 zs] eqn:En; [destruct Hp|]. exists j, z0, zs. split; auto. rewrite <- En. apply C.
Qed.
Print Assumptions propagate_atomic_numbers_spec.

(** C66: by default nothing raises for one number per atom and a merged grid *)
Theorem propagate_atomic_numbers_default original merged numbers :
  merged <> [] -> length numbers = length original ->
  exists l, propagate_atomic_numbers (map Some original) (map Some merged) numbers None 6 (8 / 10) = Ok l /\
    length l = length merged /\
    forall j z, nth_error l j = Some z -> exists zs, candidates merged (8 / 10) j (combine original numbers) zs /\ z = last zs 6%Z.
Proof.
  intros N L. destruct (propagate_atomic_numbers_spec original merged numbers None 6 (8 / 10)) as (_ & _ & K).
  destruct (K N L) as [(_ & j & z & zs & Hc & Hj)|(l & E & Ll & _ & Hl)].
  - exfalso. cbn in Hj. rewrite repeat_length in Hj.
    assert (j < length merged)%nat by (eapply candidates_in_range; eauto; discriminate). lia.
  - exists l. split; auto. cbn in Ll. rewrite repeat_length in Ll. split; auto.
    intros j z Hz. destruct (Hl j z Hz) as (zs & Hc & ->). exists zs. split; auto.
    cbn. f_equal. assert (Hj : (j < length merged)%nat) by (rewrite <- Ll; eapply nth_error_lt; eauto).
    clear -Hj. revert j Hj. induction (length merged) as [|n IH]; intros [|j] H; cbn; try lia; auto. apply IH. lia.
Qed.
Print Assumptions propagate_atomic_numbers_default.

(** C66, refuted: a silicon atom stays silicon.  Its place is taken by a carbon
    atom that comes later and has the same nearest atom: *)
Theorem propagate_keeps_silicon_refuted :
  exists original merged numbers l,
  In 14%Z numbers /\ (forall p, In p original -> exists q, In q merged /\ pdist p q < 8 / 10) /\
  propagate_atomic_numbers (map Some original) (map Some merged) numbers None 6 (8 / 10) = Ok l /\ ~ In 14%Z l.
Proof.
  set (original := [mkpt 0 0; mkpt (1 / 2) 0]). set (merged := [mkpt (1 / 4) 0]).
  assert (D : forall p, In p original -> pdist p (mkpt (1 / 4) 0) < 8 / 10).
  { intros p [<-|[<-|[]]]; apply pdist_lt_sq; try lra; unfold psq; cbn; lra. }
  destruct (propagate_atomic_numbers_default original merged [14; 6]%Z) as (l & E & L & K); [discriminate|reflexivity|].
  exists original, merged, [14; 6]%Z, l. split; [left; auto|]. split; [intros p Hp; exists (mkpt (1 / 4) 0); split; [left; auto|auto]|].
  split; auto. intro Q. apply In_nth_error in Q as (j & Hj). pose proof (nth_error_lt _ _ _ Hj) as Lj. rewrite L in Lj.
  assert (j = 0%nat) by (cbn in Lj; lia). subst j. destruct (K _ _ Hj) as (zs & Hc & E14).
  assert (C : candidates merged (8 / 10) 0 (combine original [14; 6]%Z) [14; 6]%Z).
  { assert (Na : forall p, nearest_at merged p 0).
    { intros p. exists (mkpt (1 / 4) 0). split; auto. split; [intros p' [<-|[]]; lra|intros; lia]. }
    apply candidates_yes; [apply Na|apply D; left; auto|]. apply candidates_yes; [apply Na|apply D; right; left; auto|constructor]. }
  rewrite (candidates_fun _ _ _ _ _ _ Hc C) in E14. discriminate.
Qed.
Print Assumptions propagate_keeps_silicon_refuted.
