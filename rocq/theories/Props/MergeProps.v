(** Merging by proximity (C63, C64). *)
From Coq Require Import Reals ZArith List Bool Lia Lra Arith Permutation.
From Verif Require Import Base.Prelude Model.Alignment Spec.Aligning Spec.Merging
  Proofs.BaseFacts Proofs.RateFacts Proofs.AlignFacts Proofs.MergeFacts.
Import ListNotations.
Open Scope R_scope.

Definition nonempty (ps : list pt) : bool := negb (length ps =? 0)%nat.

Lemma holds_filter h refs clouds : holds h refs clouds ->
  holds h (filter (fun r => negb (length (array h r) =? 0)%nat) refs) (filter nonempty clouds).
Proof.
  induction 1 as [|r ps refs clouds Hr H IH]; [constructor|]. cbn [filter].
  rewrite (array_at _ _ _ Hr), points_length. unfold nonempty at 1. destruct (negb _); auto. constructor; auto.
Qed.
Lemma filter_nonempty_nil clouds : filter nonempty clouds = [] <-> concat clouds = [].
Proof.
  induction clouds as [|[|p ps] cs IH]; cbn; [tauto|auto|]. split; discriminate.
Qed.
Lemma concat_filter_nonempty clouds : concat (filter nonempty clouds) = concat clouds.
Proof. induction clouds as [|[|p ps] cs IH]; cbn; auto. rewrite IH; auto. Qed.
Lemma nonempty_singletons ps : nonempty_groups (singletons ps).
Proof. unfold nonempty_groups, singletons. apply Forall_forall. intros g Hg. apply in_map_iff in Hg as (p & <- & _). discriminate. Qed.

(** C63, C64: the points fall into groups; the result holds their means and
    sizes.  Nothing but the first non-empty array is changed; that one holds the
    means of the groups of its points, up to the first array with a point that
    is new. *)
Theorem naive_merge_groups cutoff h refs clouds :
  NoDup refs -> holds h refs clouds ->
  (concat clouds = [] /\ naive_merge cutoff refs h = (Raise IndexError, h)) \/
  (exists first rest cloud clouds' groups pos h' content,
     filter (fun r => negb (length (array h r) =? 0)%nat) refs = first :: rest /\
     filter nonempty clouds = cloud :: clouds' /\
     takes_in_all cutoff (singletons cloud) clouds' groups /\
     naive_merge cutoff refs h = (Ok (pos, map (@length pt) groups), h') /\
     nth_error h' pos = Some (points (map pmean groups)) /\
     (forall r, r <> first -> (r < length h)%nat -> nth_error h' r = nth_error h r) /\
     nth_error h' first = Some (points content) /\
     prefix_until_growth cutoff (singletons cloud) clouds' content /\
     (length groups = length cloud -> pos = first) /\
     (length groups <> length cloud -> (length h <= pos)%nat)).
Proof.
  intros Nd Hh. pose proof (holds_filter h refs clouds Hh) as Hf.
  assert (Nf : NoDup (filter (fun r => negb (length (array h r) =? 0)%nat) refs)) by (apply NoDup_filter; auto).
  unfold naive_merge. destruct (filter (fun r => negb (length (array h r) =? 0)%nat) refs) as [|first rest] eqn:Ef.
  - left. inversion Hf as [E|]. split; auto. apply filter_nonempty_nil. auto.
  - right. inversion Hf as [|? cloud ? clouds' H1 H2 E1 E2]; subst. inversion Nf; subst.
    assert (Hc : cloud <> []).
    { intros ->. assert (Q : In [] (filter nonempty clouds)) by (rewrite <- E2; left; auto).
      apply filter_In in Q as [_ Q]. discriminate. }
    rewrite (array_at _ _ _ H1), points_length.
    assert (Er : repeat 1%nat (length cloud) = map (@length pt) (singletons cloud)).
    { unfold singletons. rewrite map_map. clear. induction cloud; cbn; auto. f_equal; auto. }
    rewrite Er.
    destruct (merge_arrays_groups cutoff rest clouds' first h (singletons cloud)) as (pos & h' & groups & T & E & P & O & Ll & S1 & S2 & content & Pc & Pre); auto.
    { unfold singletons. destruct cloud; [congruence|discriminate]. }
    { apply nonempty_singletons. }
    { intros m Hm. unfold holds in H2. clear -H2 Hm. induction H2; [destruct Hm|]. destruct Hm as [->|Hm]; auto. eapply nth_error_lt; eauto. }
    { rewrite pmean_singletons. auto. }
    assert (Ls : length (singletons cloud) = length cloud) by (unfold singletons; apply map_length). rewrite Ls in S1.
    exists first, rest, cloud, clouds', groups, pos, h', content. rewrite E.
    repeat (split; auto); intros Q; [apply S1; auto|apply S2; intro Q'; apply Q, S1; auto].
Qed.
Print Assumptions naive_merge_groups.

(** C63: conservation *)
Definition count_weighted_sum (positions : list pt) (counts : list nat) : pt :=
  psum (map (fun pc => pscale (INR (snd pc)) (fst pc)) (combine positions counts)).
Lemma weighted_groups groups : nonempty_groups groups ->
  count_weighted_sum (map pmean groups) (map (@length pt) groups) = psum (concat groups).
Proof.
  unfold count_weighted_sum. induction 1 as [|g gs Hg H IH]; cbn [map combine concat psum fold_right]; auto.
  fold (psum (map (fun pc => pscale (INR (snd pc)) (fst pc)) (combine (map pmean gs) (map (@length pt) gs)))).
  rewrite IH, psum_app. cbn [fst snd]. f_equal. unfold pmean.
  assert (INR (length g) <> 0) by (apply not_0_INR; destruct g; [congruence|discriminate]).
  apply pt_eq; cbn; field; auto.
Qed.
Lemma lengths_concat (groups : list (list pt)) : list_sum (map (@length pt) groups) = length (concat groups).
Proof. induction groups; cbn; auto. rewrite app_length. f_equal; auto. Qed.
Theorem naive_merge_conserves cutoff h refs clouds pos counts h' :
  NoDup refs -> holds h refs clouds -> naive_merge cutoff refs h = (Ok (pos, counts), h') ->
  exists positions, nth_error h' pos = Some (points positions) /\
    length counts = length positions /\
    list_sum counts = length (concat clouds) /\
    (forall c, In c counts -> (1 <= c)%nat) /\
    count_weighted_sum positions counts = psum (concat clouds).
Proof.
  intros Nd Hh E. destruct (naive_merge_groups cutoff h refs clouds Nd Hh) as [[_ E']|K]; [congruence|].
  destruct K as (first & rest & cloud & clouds' & groups & pos' & h'' & content & E1 & E2 & T & E3 & P & _).
  rewrite E3 in E. injection E as <- <- <-.
  pose proof (takes_in_all_perm _ _ _ _ T) as Pm. rewrite concat_singletons in Pm.
  assert (Ec : cloud ++ concat clouds' = concat clouds).
  { rewrite <- (concat_filter_nonempty clouds), E2. reflexivity. }
  rewrite Ec in Pm.
  assert (Ne : nonempty_groups groups) by (eapply takes_in_all_nonempty; eauto; apply nonempty_singletons).
  exists (map pmean groups). split; auto. split; [rewrite !map_length; auto|]. split.
  { rewrite lengths_concat. apply Permutation_length; auto. }
  split.
  - intros c Hc. apply in_map_iff in Hc as (g & <- & Hg). unfold nonempty_groups in Ne. rewrite Forall_forall in Ne.
    specialize (Ne g Hg). destruct g; [congruence|cbn; lia].
  - rewrite weighted_groups by auto. apply psum_perm; auto.
Qed.
Print Assumptions naive_merge_conserves.
(** C63: IndexError exactly when there is no point *)
Theorem naive_merge_raises cutoff h refs clouds e :
  NoDup refs -> holds h refs clouds ->
  (fst (naive_merge cutoff refs h) = Raise e <-> e = IndexError /\ concat clouds = []) /\
  fst (naive_merge cutoff refs h) <> OutOfFuel.
Proof.
  intros Nd Hh. destruct (naive_merge_groups cutoff h refs clouds Nd Hh) as [[E0 E']|K].
  - rewrite E'. cbn. split; [|discriminate]. split; [intro Q; split; congruence|intros [-> _]; auto].
  - destruct K as (first & rest & cloud & clouds' & groups & pos' & h'' & content & E1 & E2 & T & E3 & _).
    rewrite E3. cbn. split; [|discriminate]. split; [discriminate|]. intros [_ Q].
    apply filter_nonempty_nil in Q. rewrite Q in E2. discriminate.
Qed.
Print Assumptions naive_merge_raises.

(** C63: points of one array that are all farther than the cutoff from
    everything stay apart; groups only grow, so an entry with count one is the
    point it was *)
Lemma takes_in_grows cutoff groups m groups' i : takes_in cutoff groups m groups' -> (i < length groups)%nat ->
  exists more, nth i groups' [] = nth i groups [] ++ more.
Proof.
  intros (targets & _ & ->) Hi. rewrite <- receive_spec, app_nth1 by (rewrite receive_length; auto).
  rewrite receive_nth by auto. eauto.
Qed.
Lemma takes_in_all_grows cutoff groups ms groups' i : takes_in_all cutoff groups ms groups' -> (i < length groups)%nat ->
  exists more, nth i groups' [] = nth i groups [] ++ more.
Proof.
  induction 1 as [|groups m ms g1 g2 T1 T2 IH]; intros Hi; [exists []; rewrite app_nil_r; auto|].
  destruct (takes_in_grows _ _ _ _ _ T1 Hi) as (m1 & E1). pose proof (takes_in_length _ _ _ _ T1).
  destruct IH as (m2 & E2); [lia|]. exists (m1 ++ m2). rewrite E2, E1, app_assoc. auto.
Qed.
Theorem naive_merge_single cutoff h refs clouds pos counts h' i :
  NoDup refs -> holds h refs clouds -> naive_merge cutoff refs h = (Ok (pos, counts), h') ->
  nth_error counts i = Some 1%nat ->
  exists p, In p (concat clouds) /\ row h' pos i = Some p /\
    forall cloud rest, filter nonempty clouds = cloud :: rest -> (i < length cloud)%nat -> nth_error cloud i = Some p.
Proof.
  intros Nd Hh E Hi. destruct (naive_merge_groups cutoff h refs clouds Nd Hh) as [[_ E']|K]; [congruence|].
  destruct K as (first & rest & cloud & clouds' & groups & pos' & h'' & content & E1 & E2 & T & E3 & P & _).
  rewrite E3 in E. injection E as <- <- <-.
  apply nth_error_map_Some in Hi as (g & Hg & Lg).
  destruct g as [|p [|p' g]]; try discriminate. exists p. split; [|split].
  - pose proof (takes_in_all_perm _ _ _ _ T) as Pm. rewrite concat_singletons in Pm.
    rewrite <- (concat_filter_nonempty clouds), E2. cbn [concat]. eapply Permutation_in; [exact Pm|].
    apply in_concat. exists [p]. split; [eapply nth_error_In; eauto|left; auto].
  - unfold row. rewrite (array_at _ _ _ P). rewrite nth_points by (rewrite map_length; eapply nth_error_lt; eauto).
    f_equal. rewrite (nth_map_in pmean groups i []) by (eapply nth_error_lt; eauto).
    rewrite (nth_error_nth_default _ _ [] _ Hg). unfold pmean. apply pt_eq; cbn; field.
  - intros cloud0 rest0 Q Hc. rewrite E2 in Q. injection Q as <- <-.
    destruct (takes_in_all_grows _ _ _ _ i T) as (more & Em); [unfold singletons; rewrite map_length; auto|].
    rewrite (nth_error_nth_default _ _ [] _ Hg) in Em. unfold singletons in Em.
    rewrite (nth_map_in (fun p => [p]) cloud i pzero) in Em by auto. injection Em as -> _.
    apply nth_error_nth'. auto.
Qed.
Print Assumptions naive_merge_single.

(** C64, refuted: the inputs are left alone.  Two points nearer than the cutoff
    in two arrays: the first array now holds their mean, and is the result. *)
Theorem naive_merge_pure_refuted cutoff p q : pdist q p < cutoff ->
  naive_merge cutoff [0%nat; 1%nat] [points [p]; points [q]] =
  (Ok (0%nat, [2%nat]), [points [pmean [p; q]]; points [q]]).
Proof.
  intros H. unfold naive_merge. cbn -[weighted pmean pdist]. apply Rltb_true in H. rewrite H.
  cbn -[pmean]. repeat f_equal. unfold pmean. apply pt_eq; cbn; field.
Qed.
Print Assumptions naive_merge_pure_refuted.
Theorem naive_merge_inputs_unchanged_refuted :
  exists cutoff refs h pos counts h', naive_merge cutoff refs h = (Ok (pos, counts), h') /\
    array h 0 = points [mkpt 0 0] /\ array h' 0 = points [mkpt (1 / 2) 0].
Proof.
  exists 2, [0%nat; 1%nat], [points [mkpt 0 0]; points [mkpt 1 0]].
  assert (D : pdist (mkpt 1 0) (mkpt 0 0) < 2).
  { apply pdist_lt_sq; [lra|]. unfold psq. cbn. lra. }
  do 3 eexists. split; [apply (naive_merge_pure_refuted 2 _ _ D)|]. split; [reflexivity|].
  unfold array, points. cbn -[pmean]. repeat f_equal. unfold pmean. apply pt_eq; cbn; lra.
Qed.
Print Assumptions naive_merge_inputs_unchanged_refuted.

(** three arrays, one of them empty, with a merge and a new point *)
Example naive_merge_nonvacuous :
  let h := [points []; points [mkpt 0 0]; points [mkpt 1 0; mkpt 9 0]] in
  NoDup [0%nat; 1%nat; 2%nat] /\ holds h [0%nat; 1%nat; 2%nat] [[]; [mkpt 0 0]; [mkpt 1 0; mkpt 9 0]] /\
  exists groups, takes_in 2 (singletons [mkpt 0 0]) [mkpt 1 0; mkpt 9 0] groups /\
    groups = [[mkpt 0 0; mkpt 1 0]; [mkpt 9 0]].
Proof.
  assert (P1 : map pmean (singletons [mkpt 0 0]) = [mkpt 0 0]) by apply pmean_singletons.
  split; [|split].
  - repeat constructor; cbn; intuition lia.
  - repeat constructor.
  - eexists. split; [|reflexivity]. exists [Some 0%nat; None]. split; [|reflexivity]. rewrite P1.
    assert (Na : forall q, nearest_at [mkpt 0 0] q 0).
    { intros q. exists (mkpt 0 0). split; auto. split; [intros p' [<-|[]]; lra|intros; lia]. }
    constructor; [|constructor; [|constructor]]; exists 0%nat; (split; [apply Na|]); cbn [nth].
    + left. split; auto. apply pdist_lt_sq; [lra|]. unfold psq. cbn. lra.
    + right. split; auto. apply Rnot_lt_le. intro H. apply pdist_lt_sq in H; [|lra]. unfold psq in H. cbn in H. lra.
Qed.
