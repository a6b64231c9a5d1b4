From Coq Require Import Reals ZArith List Bool Lia Lra Arith Permutation.
From Verif Require Import Base.Prelude Model.Alignment Spec.Aligning Spec.Merging
  Proofs.BaseFacts Proofs.RateFacts Proofs.AlignFacts.
Import ListNotations.
Open Scope R_scope.

Lemma nth_upd_same {A} (l : list A) i v d : (i < length l)%nat -> nth i (upd l i v) d = v.
Proof. revert i; induction l as [|x l IH]; intros [|i] H; cbn in *; try lia; auto. apply IH; lia. Qed.
Lemma nth_upd_other {A} (l : list A) i j v d : i <> j -> nth j (upd l i v) d = nth j l d.
Proof. revert i j; induction l as [|x l IH]; intros [|i] [|j] H; cbn in *; try lia; auto. Qed.
Lemma upd_map {A B} (f : A -> B) l i v : upd (map f l) i (f v) = map f (upd l i v).
Proof. revert i; induction l as [|x l IH]; intros [|i]; cbn; auto. rewrite IH; auto. Qed.
Lemma nth_error_upd_other {A} (l : list A) i j v : i <> j -> nth_error (upd l i v) j = nth_error l j.
Proof. revert i j; induction l as [|x l IH]; intros [|i] [|j] H; cbn in *; try lia; auto. Qed.
Lemma nth_error_upd_same {A} (l : list A) i v : (i < length l)%nat -> nth_error (upd l i v) i = Some v.
Proof. revert i; induction l as [|x l IH]; intros [|i] H; cbn in *; try lia; auto. apply IH; lia. Qed.

Lemma argmin_nearest_at qs p j : argmin (map (pdist p) qs) = Some j -> nearest_at qs p j /\ (j < length qs)%nat.
Proof.
  intros K. apply argmin_spec in K as (L & M & F). rewrite map_length in *. split; auto.
  assert (N : forall k, (k < length qs)%nat -> nth k (map (pdist p) qs) 0 = pdist p (nth k qs pzero)).
  { intros k Hk. rewrite (nth_indep _ 0 (pdist p pzero)) by (rewrite map_length; auto). apply map_nth. }
  exists (nth j qs pzero). split; [apply nth_error_nth'; auto|]. rewrite N in M, F by auto. split.
  - intros q' H. apply In_nth_error in H as (k & H). pose proof (nth_error_lt _ _ _ H) as Hk.
    specialize (M k Hk). rewrite N in M by auto. rewrite (nth_error_nth_default _ _ pzero _ H) in M. exact M.
  - intros k q' Hk H. pose proof (nth_error_lt _ _ _ H) as Hk'.
    specialize (F k Hk). rewrite N in F by auto. rewrite (nth_error_nth_default _ _ pzero _ H) in F. exact F.
Qed.
Lemma nearest_at_fun l q j j' : nearest_at l q j -> nearest_at l q j' -> j = j'.
Proof.
  intros (p & E & M & F) (p' & E' & M' & F').
  destruct (Nat.lt_trichotomy j j') as [H|[H|H]]; auto.
  - specialize (F' j p H E). specialize (M p' (nth_error_In _ _ E')). lra.
  - specialize (F j' p' H E'). specialize (M' p (nth_error_In _ _ E)). lra.
Qed.

Lemma array_at (h : heap) r a : nth_error h r = Some a -> array h r = a.
Proof. intros K. unfold array. apply nth_error_nth_default. auto. Qed.
Lemma nth_points ps i : (i < length ps)%nat -> nth i (points ps) None = Some (nth i ps pzero).
Proof. apply nth_map_Some. Qed.
Lemma upd_points ps i p : upd (points ps) i (Some p) = points (upd ps i p).
Proof. apply (upd_map (@Some pt)). Qed.
Lemma points_app a b : points (a ++ b) = points a ++ points b.
Proof. apply map_app. Qed.
Lemma points_length ps : length (points ps) = length ps.
Proof. apply map_length. Qed.

(** the model's choice of rows *)
Definition target_of (cutoff : R) (c : nat * option R) : option nat :=
  if nan_ltb (snd c) cutoff then Some (fst c) else None.
Lemma closest_rows_joins cutoff positions m : positions <> [] ->
  Forall2 (joins cutoff positions) m (map (target_of cutoff) (closest_rows (points positions) (points m))) /\
  Forall (fun c => (fst c < length positions)%nat) (closest_rows (points positions) (points m)).
Proof.
  intros N. induction m as [|q m [IH IH2]]; [split; constructor|].
  cbn [points map closest_rows]. fold (points m). fold (points positions). unfold points at 2 5.
  rewrite vdist_row, nan_argmin_Some.
  destruct (argmin_Some (map (pdist q) positions)) as (j & Ej); [destruct positions; [contradiction|discriminate]|].
  rewrite Ej. apply argmin_nearest_at in Ej as [Nj Lj]. rewrite nth_points by auto. split; constructor; auto.
  exists j. split; auto. unfold target_of. cbn [fst snd vdist nan_ltb].
  destruct (Rltb (pdist q (nth j positions pzero)) cutoff) eqn:E; rb; auto.
Qed.

Fixpoint receive (groups : list (list pt)) (m : list pt) (targets : list (option nat)) : list (list pt) :=
  match m, targets with
  | q :: m, Some t :: targets => receive (upd groups t (nth t groups [] ++ [q])) m targets
  | q :: m, None :: targets => receive groups m targets
  | _, _ => groups
  end.
Lemma receive_length groups m targets : length (receive groups m targets) = length groups.
Proof.
  revert groups targets; induction m as [|q m IH]; intros groups [|[t|] ts]; cbn; auto.
  rewrite IH, upd_length. auto.
Qed.
Lemma receive_nth groups m targets i : (i < length groups)%nat ->
  nth i (receive groups m targets) [] = nth i groups [] ++ received i m targets.
Proof.
  revert groups targets; induction m as [|q m IH]; intros groups [|[t|] ts] H; cbn; rewrite ?app_nil_r; auto.
  rewrite IH by (rewrite upd_length; auto). destruct (Nat.eqb_spec i t).
  - subst. rewrite nth_upd_same by auto. rewrite <- app_assoc. reflexivity.
  - rewrite nth_upd_other by auto. reflexivity.
Qed.
Lemma receive_spec groups m targets :
  receive groups m targets = map (fun ig => snd ig ++ received (fst ig) m targets) (combine (seq 0 (length groups)) groups).
Proof.
  apply nth_error_ext'. intro i. destruct (lt_dec i (length groups)) as [H|H].
  - rewrite (nth_error_nth' _ []) by (rewrite receive_length; auto). rewrite receive_nth by auto.
    rewrite nth_error_map. rewrite (nth_error_nth' (combine _ _) (0%nat, [])) by (rewrite combine_length, seq_length; lia).
    rewrite combine_nth by (rewrite seq_length; auto). rewrite seq_nth by auto. reflexivity.
  - rewrite (proj2 (nth_error_None _ _)) by (rewrite receive_length; lia).
    symmetry. apply nth_error_None. rewrite map_length, combine_length, seq_length. lia.
Qed.

Lemma pmean_snoc g q : g <> [] -> pmean (g ++ [q]) = pscale (/ (INR (length g) + 1)) (padd (pscale (INR (length g)) (pmean g)) q).
Proof.
  intros N. unfold pmean. rewrite app_length. cbn [length]. rewrite Nat.add_1_r, S_INR, psum_app.
  assert (Hp : 0 < INR (length g)) by (apply lt_0_INR; destruct g; [congruence|cbn; lia]).
  apply pt_eq; cbn; field; split; lra.
Qed.
Lemma pmean_singletons ps : map pmean (singletons ps) = ps.
Proof.
  unfold singletons. rewrite map_map. rewrite <- (map_id ps) at 2. apply map_ext. intro p.
  unfold pmean. apply pt_eq; cbn; field.
Qed.

Definition nonempty_groups (groups : list (list pt)) : Prop := Forall (fun g => g <> []) groups.
Lemma nonempty_upd groups t q : nonempty_groups groups -> nonempty_groups (upd groups t (nth t groups [] ++ [q])).
Proof.
  intros K. unfold nonempty_groups in *. revert t. induction K as [|g gs Hg K IH]; intros [|t]; cbn; constructor; auto.
  destruct g; discriminate.
Qed.
Lemma nonempty_receive groups m targets : nonempty_groups groups -> nonempty_groups (receive groups m targets).
Proof.
  revert groups targets; induction m as [|q m IH]; intros groups [|[t|] ts] K; cbn; auto.
  apply IH, nonempty_upd; auto.
Qed.

Lemma nth_map_in {A B} (f : A -> B) l i d d' : (i < length l)%nat -> nth i (map f l) d' = f (nth i l d).
Proof. intros H. rewrite (nth_indep _ d' (f d)) by (rewrite map_length; auto). apply map_nth. Qed.

Lemma merge_rows_groups cutoff pos m : pos <> m -> forall mp rest current closest h counts new groups,
  nth_error h m = Some (points mp) -> (current + length rest = length mp)%nat -> skipn current mp = rest ->
  length closest = length rest -> Forall (fun c => (fst c < length groups)%nat) closest ->
  nth_error h pos = Some (points (map pmean groups)) -> counts = map (@length pt) groups -> nonempty_groups groups ->
  let targets := map (target_of cutoff) closest in
  let groups' := receive groups rest targets in
  exists h' new', merge_rows cutoff pos m current closest h counts new = (h', map (@length pt) groups', new ++ new') /\
    length h' = length h /\ nth_error h' pos = Some (points (map pmean groups')) /\
    (forall r, r <> pos -> nth_error h' r = nth_error h r) /\
    map (row h' m) new' = points (left_over rest targets).
Proof.
  intros Npm mp rest. induction rest as [|q rest IH]; intros current closest h counts new groups Hm Hc Hr Lc Fc Hp Hn Ne.
  - destruct closest; [|discriminate]. cbn. exists h, []. rewrite app_nil_r. subst. auto.
  - destruct closest as [|[t d] closest]; [discriminate|]. inversion Fc as [|? ? Ht Fc']; subst. cbn [fst] in Ht.
    assert (Eq : nth_error mp current = Some q).
    { rewrite <- (firstn_skipn current mp). rewrite nth_error_app2; rewrite firstn_length_le; try lia.
      rewrite Nat.sub_diag, Hr. reflexivity. }
    assert (Sk : skipn (S current) mp = rest).
    { clear -Hr. revert mp Hr. induction current as [|c IH]; intros [|x mp] H; cbn in H; try discriminate.
      - cbn. congruence.
      - cbn [skipn]. apply IH. exact H. }
    assert (Et : target_of cutoff (t, d) = if nan_ltb d cutoff then Some t else None) by reflexivity.
    cbn [map merge_rows]. rewrite Et. clear Et.
    assert (Row : row h m current = Some q).
    { unfold row. rewrite (array_at _ _ _ Hm). rewrite nth_points by (apply nth_error_lt in Eq; auto).
      f_equal. apply (nth_error_nth_default _ _ pzero) in Eq. auto. }
    destruct (nan_ltb d cutoff) eqn:Ed; cbn [receive left_over].
    + set (g := nth t groups []).
      assert (Rp : row h pos t = Some (pmean g)).
      { unfold row. rewrite (array_at _ _ _ Hp).
        rewrite nth_points by (rewrite map_length; auto). f_equal. unfold g. apply nth_map_in; auto. }
      assert (Cn : nth t (map (@length pt) groups) 0%nat = length g) by (apply nth_map_in; auto).
      assert (Gne : g <> []). { unfold g. unfold nonempty_groups in Ne. rewrite Forall_forall in Ne. apply Ne. apply nth_In; auto. }
      rewrite Rp, Row, Cn. cbn [weighted].
      set (h1 := set_row h pos t _).
      assert (Hlt : (pos < length h)%nat) by (eapply nth_error_lt; eauto).
      assert (H1p : nth_error h1 pos = Some (points (map pmean (upd groups t (g ++ [q]))))).
      { unfold h1, set_row. rewrite nth_error_upd_same by auto. f_equal.
        rewrite (array_at _ _ _ Hp).
        rewrite <- pmean_snoc by auto. rewrite (upd_points), (upd_map pmean). reflexivity. }
      assert (H1o : forall r, r <> pos -> nth_error h1 r = nth_error h r) by (intros r Hr'; apply nth_error_upd_other; auto).
      assert (Cu : upd (map (@length pt) groups) t (S (length g)) = map (@length pt) (upd groups t (g ++ [q]))).
      { rewrite <- (upd_map (@length pt)). f_equal. rewrite app_length. cbn. lia. }
      rewrite Cu.
      destruct (IH (S current) closest h1 (map (@length pt) (upd groups t (g ++ [q]))) new (upd groups t (g ++ [q])))
        as (h' & new' & E & Lh & Hp' & Ho & Nw); auto.
      * rewrite H1o by auto. auto.
      * cbn in Hc. lia.
      * eapply Forall_impl; [|exact Fc']. intros c Hc'. rewrite upd_length. auto.
      * apply nonempty_upd; auto.
      * exists h', new'. split; auto. split; [rewrite Lh; apply upd_length|]. split; auto. split; auto.
        intros r Hr'. rewrite Ho by auto. auto.
    + destruct (IH (S current) closest h (map (@length pt) groups) (new ++ [current]) groups)
        as (h' & new' & E & Lh & Hp' & Ho & Nw); auto.
      * cbn in Hc. lia.
      * exists h', (current :: new'). rewrite E. rewrite <- app_assoc. split; auto. split; auto. split; auto. split; auto.
        cbn [map]. rewrite Nw. cbn [points map]. f_equal. unfold row.
        assert (Hm' : nth_error h' m = Some (points mp)) by (rewrite Ho by auto; auto).
        rewrite (array_at _ _ _ Hm'). rewrite nth_points by (apply nth_error_lt in Eq; auto).
        f_equal. apply (nth_error_nth_default _ _ pzero) in Eq. auto.
Qed.

Lemma nonempty_takes cutoff groups m groups' : nonempty_groups groups -> takes_in cutoff groups m groups' -> nonempty_groups groups'.
Proof.
  intros Ne (targets & _ & ->). rewrite <- receive_spec. apply Forall_app. split.
  - apply nonempty_receive; auto.
  - apply Forall_forall. intros g Hg. apply in_map_iff in Hg as (q & <- & _). discriminate.
Qed.

(** one array; what becomes of the heap *)
Lemma merge_one cutoff pos m h groups mp : pos <> m -> groups <> [] -> nonempty_groups groups ->
  nth_error h pos = Some (points (map pmean groups)) -> nth_error h m = Some (points mp) ->
  exists groups', takes_in cutoff groups mp groups' /\
  exists h1 new, merge_rows cutoff pos m 0 (closest_rows (array h pos) (array h m)) h (map (@length pt) groups) [] = (h1, map (@length pt) (firstn (length groups) groups'), new) /\
    length h1 = length h /\ nth_error h1 pos = Some (points (firstn (length groups) (map pmean groups'))) /\
    (forall r, r <> pos -> nth_error h1 r = nth_error h r) /\
    (length groups <= length groups')%nat /\
    (new = [] <-> length groups' = length groups) /\
    array h1 pos ++ map (row h1 m) new = points (map pmean groups') /\
    map (@length pt) (firstn (length groups) groups') ++ repeat 1%nat (length new) = map (@length pt) groups'.
Proof.
  intros Npm Ng Ne Hp Hm. rewrite (array_at _ _ _ Hp), (array_at _ _ _ Hm).
  assert (Np : map pmean groups <> []) by (destruct groups; [congruence|discriminate]).
  destruct (closest_rows_joins cutoff (map pmean groups) mp Np) as [J Fc]. rewrite map_length in Fc.
  set (closest := closest_rows _ _) in *. set (targets := map (target_of cutoff) closest) in *.
  assert (Lc : length closest = length mp) by (unfold closest, closest_rows, points; rewrite !map_length; auto).
  destruct (merge_rows_groups cutoff pos m Npm mp mp 0 closest h _ [] groups Hm eq_refl eq_refl Lc Fc Hp eq_refl Ne)
    as (h1 & new & E & Lh & Hp1 & Ho & Nw). fold targets in E, Hp1, Nw.
  set (g1 := receive groups mp targets) in *.
  assert (Lg : length g1 = length groups) by apply receive_length.
  exists (g1 ++ map (fun q => [q]) (left_over mp targets)). split.
  { exists targets. split; auto. unfold g1. rewrite receive_spec. reflexivity. }
  exists h1, new. cbn [app] in E.
  assert (Ln : length new = length (left_over mp targets)).
  { rewrite <- (map_length (row h1 m) new), Nw, points_length. auto. }
  rewrite map_app, <- Lg. rewrite firstn_app, Nat.sub_diag, firstn_all, firstn_O, app_nil_r.
  rewrite <- (map_length pmean g1), firstn_app, Nat.sub_diag, firstn_all, firstn_O, app_nil_r, map_length.
  split; auto. split; auto. split; auto. split; auto. split; [rewrite app_length; lia|]. split.
  { rewrite app_length, map_length, <- Ln. split; [intros ->; cbn; lia|]. intro Q. destruct new; auto. cbn in Q. lia. }
  split.
  - rewrite Nw, (array_at _ _ _ Hp1), <- points_app. f_equal. rewrite ?map_app. f_equal.
    symmetry. apply pmean_singletons.
  - rewrite map_app, map_map. cbn [length]. f_equal. rewrite Ln. clear.
    induction (left_over mp targets); cbn; auto. f_equal; auto.
Qed.

Lemma takes_in_nonempty cutoff groups m groups' : groups <> [] -> takes_in cutoff groups m groups' -> groups' <> [].
Proof.
  intros N (t & _ & ->). destruct groups as [|g gs]; [congruence|]. cbn. discriminate.
Qed.
Lemma takes_in_length cutoff groups m groups' : takes_in cutoff groups m groups' -> (length groups <= length groups')%nat.
Proof.
  intros (t & _ & ->). rewrite <- receive_spec, app_length, receive_length. lia.
Qed.

Lemma merge_arrays_groups cutoff : forall ms clouds pos h groups, groups <> [] -> nonempty_groups groups ->
  ~ In pos ms -> holds h ms clouds -> (forall m, In m ms -> (m < length h)%nat) ->
  nth_error h pos = Some (points (map pmean groups)) ->
  exists pos' h' groups', takes_in_all cutoff groups clouds groups' /\
    merge_arrays cutoff pos ms h (map (@length pt) groups) = (pos', map (@length pt) groups', h') /\
    nth_error h' pos' = Some (points (map pmean groups')) /\
    (forall r, r <> pos -> (r < length h)%nat -> nth_error h' r = nth_error h r) /\
    (length h <= length h')%nat /\
    (length groups' = length groups <-> pos' = pos) /\
    (pos' <> pos -> (length h <= pos')%nat) /\
    exists content, nth_error h' pos = Some (points content) /\ prefix_until_growth cutoff groups clouds content.
Proof.
  induction ms as [|m ms IH]; intros clouds pos h groups Ng Ne Npos Hh Hlt Hp.
  - inversion Hh; subst. exists pos, h, groups. cbn [merge_arrays].
    split; [constructor|]. split; auto. split; auto. split; auto. split; auto. split; [tauto|]. split; [congruence|].
    exists (map pmean groups). split; auto. exists [], [], groups. split; auto. split; [constructor|]. split; auto.
  - inversion Hh as [|? mp ? clouds' Hm Hms]; subst.
    assert (Npm : pos <> m) by (intros ->; apply Npos; left; auto).
    destruct (merge_one cutoff pos m h groups mp Npm Ng Ne Hp Hm) as (g1 & Tk & h1 & new & E & Lh & Hp1 & Ho & Lg & Nn & Arr & Cn).
    assert (Ng1 : g1 <> []) by (eapply takes_in_nonempty; eauto).
    assert (Ne1 : nonempty_groups g1) by (eapply nonempty_takes; eauto).
    assert (Plt : (pos < length h)%nat) by (eapply nth_error_lt; eauto).
    cbn [merge_arrays]. rewrite E.
    destruct new as [|n0 new'] eqn:En.
    + assert (L1 : length g1 = length groups) by (apply Nn; auto).
      rewrite firstn_all2 by lia. rewrite firstn_all2 in Hp1 by (rewrite map_length; lia).
      assert (Hh1 : holds h1 ms clouds').
      { unfold holds in *. clear -Hms Ho Npos. induction Hms; constructor; auto.
        - rewrite Ho; auto. intros ->. apply Npos. right; left; auto.
        - apply IHHms. intros [H1|H1]; apply Npos; [left|right; right]; auto. }
      destruct (IH clouds' pos h1 g1 Ng1 Ne1) as (pos' & h' & g' & T & E2 & P & O & Ll & S1 & S2 & content & Pc & Pre); auto.
      { intro Q; apply Npos; right; auto. }
      { intros r Hr. rewrite Lh. apply Hlt; right; auto. }
      exists pos', h', g'. split; [econstructor; eauto|]. split; auto. split; auto.
      split. { intros r Hr Hl. rewrite O by (auto; lia). auto. }
      split; [lia|]. split; [rewrite <- L1; auto|]. split; [intros; rewrite <- Lh; auto|].
      exists content. split; auto. destruct Pre as (before & after & g2 & Q1 & Q2 & Q3 & Q4).
      exists (mp :: before), after, g2. split; [cbn; congruence|]. split; [econstructor; eauto|]. split; [congruence|].
      rewrite <- L1. auto.
    + assert (L1 : (length groups < length g1)%nat).
      { destruct (Nat.eq_dec (length g1) (length groups)) as [Q|Q]; [apply Nn in Q; discriminate|lia]. }
      unfold alloc. rewrite Arr, Cn. set (h2 := h1 ++ [points (map pmean g1)]).
      assert (L2 : length h2 = S (length h)) by (unfold h2; rewrite app_length, Lh; cbn; lia).
      assert (Ho2 : forall r, (r < length h)%nat -> nth_error h2 r = nth_error h1 r).
      { intros r Hr. unfold h2. apply nth_error_app1. lia. }
      assert (Hh2 : holds h2 ms clouds').
      { unfold holds in *. assert (Hlt' : forall r, In r ms -> (r < length h)%nat) by (intros; apply Hlt; right; auto).
        assert (Npos' : ~ In pos ms) by (intro Q; apply Npos; right; auto).
        clear -Hms Ho Ho2 Npos' Hlt'. induction Hms; constructor; auto.
        - rewrite Ho2 by (apply Hlt'; left; auto). rewrite Ho; auto. intros ->. apply Npos'. left; auto.
        - apply IHHms; [intros; apply Hlt'; right; auto|]. intro Q. apply Npos'. right; auto. }
      destruct (IH clouds' (length h1) h2 g1 Ng1 Ne1) as (pos' & h' & g' & T & E2 & P & O & Ll & S1 & S2 & _); auto.
      { intro Q. specialize (Hlt _ (or_intror Q)). lia. }
      { intros r Hr. rewrite L2. specialize (Hlt _ (or_intror Hr)). lia. }
      { unfold h2. rewrite nth_error_app2, Nat.sub_diag by lia. reflexivity. }
      assert (Pge : (length h <= pos')%nat).
      { destruct (Nat.eq_dec pos' (length h1)) as [->|Q]; [lia|]. specialize (S2 Q). lia. }
      exists pos', h', g'. split; [econstructor; eauto|]. split; auto. split; auto.
      split. { intros r Hr Hl. rewrite O by lia. rewrite Ho2 by auto. auto. }
      split; [lia|]. split.
      { split; [|intros ->; lia]. intro Q. exfalso.
        assert ((length g1 <= length g')%nat).
        { clear -T. induction T; auto. apply takes_in_length in H. lia. }
        lia. }
      split; [auto|].
      exists (firstn (length groups) (map pmean g1)). split.
      { rewrite O by lia. rewrite Ho2 by auto. auto. }
      exists [], (mp :: clouds'), groups. split; auto. split; [constructor|]. split; auto. right.
      exists mp, clouds', g1. auto.
Qed.

(** * conservation *)
Lemma received_left_over m targets n : length targets = length m ->
  (forall t, In (Some t) targets -> (t < n)%nat) ->
  Permutation m (flat_map (fun i => received i m targets) (seq 0 n) ++ left_over m targets).
Proof.
  revert targets; induction m as [|q m IH]; intros [|t ts] L K; try discriminate.
  - cbn. rewrite app_nil_r. clear. induction (seq 0 n); auto.
  - cbn in L. specialize (IH ts ltac:(lia) ltac:(intros; apply K; right; auto)).
    destruct t as [t|].
    + assert (Ht : (t < n)%nat) by (apply K; left; auto).
      cbn [left_over]. 
      assert (X : Permutation (flat_map (fun i => received i (q :: m) (Some t :: ts)) (seq 0 n))
                     (q :: flat_map (fun i => received i m ts) (seq 0 n))).
      { assert (Hin : In t (seq 0 n)) by (apply in_seq; lia).
        pose proof (seq_NoDup n 0) as Nd. revert Hin Nd. generalize (seq 0 n).
        set (f := fun i => received i (q :: m) (Some t :: ts)). set (f' := fun i => received i m ts).
        assert (Fs : f t = q :: f' t) by (unfold f; cbn; rewrite Nat.eqb_refl; reflexivity).
        assert (Fo : forall i, i <> t -> f i = f' i).
        { intros i N. unfold f. cbn. destruct (Nat.eqb_spec i t); [congruence|reflexivity]. }
        clearbody f f'. clear -Fs Fo.
        induction l as [|i l IHl]; intros Hin Nd; [destruct Hin|]. inversion Nd; subst.
        cbn [flat_map]. destruct (Nat.eq_dec i t).
        - subst. rewrite Fs. cbn [app]. constructor. apply Permutation_app_head.
          rewrite (flat_map_ext_in f f' l); auto. intros x Hx. apply Fo. intros ->. contradiction.
        - destruct Hin as [->|Hin]; [congruence|]. specialize (IHl Hin H2). rewrite Fo by auto.
          eapply Permutation_trans; [apply Permutation_app_head; exact IHl|].
          apply Permutation_sym. apply Permutation_middle. }
      eapply Permutation_trans; [|apply Permutation_app_tail; apply Permutation_sym; exact X].
      cbn [app]. constructor. exact IH.
    + cbn [left_over]. apply Permutation_cons_app.
      assert (E : flat_map (fun i => received i (q :: m) (None :: ts)) (seq 0 n) = flat_map (fun i => received i m ts) (seq 0 n)).
      { apply flat_map_ext_in. reflexivity. }
      rewrite E. exact IH.
Qed.
Lemma concat_map_app {A B} (f g : A -> list B) l :
  Permutation (concat (map (fun x => f x ++ g x) l)) (concat (map f l) ++ concat (map g l)).
Proof.
  induction l as [|x l IH]; cbn; auto.
  rewrite <- !app_assoc. apply Permutation_app_head.
  eapply Permutation_trans; [apply Permutation_app_head; exact IH|].
  rewrite !app_assoc. apply Permutation_app_tail. apply Permutation_app_comm.
Qed.
Lemma takes_in_perm cutoff groups m groups' : takes_in cutoff groups m groups' ->
  Permutation (concat groups') (concat groups ++ m).
Proof.
  intros (targets & J & ->). rewrite concat_app.
  assert (L : length targets = length m). { clear -J. induction J; cbn; auto. }
  assert (K : forall t, In (Some t) targets -> (t < length groups)%nat).
  { intros t Ht. clear L. induction J as [|q o m ts Hj J IH]; [destruct Ht|]. destruct Ht as [->|Ht]; auto.
    destruct Hj as (j & (p & E & _) & [[_ Q]|[_ Q]]); [|discriminate]. injection Q as ->.
    apply nth_error_lt in E. rewrite map_length in E. auto. }
  pose proof (received_left_over m targets (length groups) L K) as P.
  set (cs := combine (seq 0 (length groups)) groups).
  assert (E1 : concat (map snd cs) = concat groups).
  { f_equal. unfold cs. clear. generalize 0%nat. induction groups as [|g gs IH]; intro k; cbn; auto. f_equal; auto. }
  assert (E2 : concat (map (fun ig : nat * list pt => received (fst ig) m targets) cs) = flat_map (fun i => received i m targets) (seq 0 (length groups))).
  { rewrite flat_map_concat_map. f_equal. unfold cs. clear. generalize 0%nat. induction groups as [|g gs IH]; intro k; cbn; auto. f_equal; auto. }
  assert (E3 : concat (map (fun q : pt => [q]) (left_over m targets)) = left_over m targets).
  { clear. induction (left_over m targets); cbn; auto. f_equal; auto. }
  rewrite E3.
  eapply Permutation_trans; [apply Permutation_app_tail; apply concat_map_app|]. rewrite E1, E2, <- app_assoc.
  apply Permutation_app_head. apply Permutation_sym. exact P.
Qed.
Lemma takes_in_all_perm cutoff groups ms groups' : takes_in_all cutoff groups ms groups' ->
  Permutation (concat groups') (concat groups ++ concat ms).
Proof.
  induction 1 as [|groups m ms g1 g2 T1 T2 IH]; cbn; [rewrite app_nil_r; auto|].
  eapply Permutation_trans; [exact IH|]. rewrite app_assoc. apply Permutation_app_tail. eapply takes_in_perm; eauto.
Qed.
Lemma takes_in_all_nonempty cutoff groups ms groups' : takes_in_all cutoff groups ms groups' ->
  nonempty_groups groups -> nonempty_groups groups'.
Proof. induction 1; auto. intros. apply IHtakes_in_all. eapply nonempty_takes; eauto. Qed.
Lemma concat_singletons ps : concat (singletons ps) = ps.
Proof. unfold singletons. induction ps; cbn; auto. f_equal; auto. Qed.
