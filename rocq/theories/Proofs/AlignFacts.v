From Coq Require Import Reals ZArith List Bool Lia Lra Arith Permutation Sorting.Sorted.
From Flocq Require Import Core.
From Verif Require Import Base.Prelude Base.Random Model.Constants Model.Geometry Model.MicroscopeUtils Model.Alignment
  Spec.Aligning Proofs.BaseFacts Proofs.GeometryFacts.
Import ListNotations.
Open Scope R_scope.

(** * NaN-free arrays *)
Lemma first_nan_Some l i : first_nan i (map Some l) = None.
Proof. revert i; induction l; cbn; auto. Qed.
Lemma nan_argmin_Some l : nan_argmin (map Some l) = argmin l.
Proof. unfold nan_argmin. rewrite first_nan_Some, map_map, map_id. reflexivity. Qed.
Lemma vdist_row p qs : map (vdist (Some p)) (map Some qs) = map Some (map (pdist p) qs).
Proof. rewrite !map_map. reflexivity. Qed.
Lemma finite_rows_Some l : finite_rows (map Some l) = Some l.
Proof. induction l as [|a l IH]; cbn; auto. rewrite IH. reflexivity. Qed.
Lemma finite_rows_iff l ps : finite_rows l = Some ps <-> l = map Some ps.
Proof.
  split; [|intros ->; apply finite_rows_Some].
  revert ps; induction l as [|[p|] l IH]; cbn; intros ps K; try discriminate.
  - injection K as <-. reflexivity.
  - destruct (finite_rows l) as [ps'|]; [|discriminate]. injection K as <-. cbn. rewrite <- (IH ps'); auto.
Qed.
Lemma nth_map_Some (l : list pt) i : (i < length l)%nat -> nth i (map Some l) None = Some (nth i l pzero).
Proof. intros H. rewrite (nth_indep _ None (Some pzero)) by (rewrite map_length; auto). apply map_nth. Qed.

Lemma argmin_nearest qs p j : argmin (map (pdist p) qs) = Some j -> nearest_in qs p (nth j qs pzero) /\ (j < length qs)%nat.
Proof.
  intros K. apply argmin_spec in K as (L & M & F). rewrite map_length in *. split; auto.
  assert (N : forall k, (k < length qs)%nat -> nth k (map (pdist p) qs) 0 = pdist p (nth k qs pzero)).
  { intros k Hk. rewrite (nth_indep _ 0 (pdist p pzero)) by (rewrite map_length; auto). apply map_nth. }
  exists j. split; [apply nth_error_nth'; auto|]. rewrite N in M, F by auto. split.
  - intros q' H. apply In_nth_error in H as (k & H). pose proof (nth_error_lt _ _ _ H) as Hk.
    specialize (M k Hk). rewrite N in M by auto. rewrite (nth_error_nth_default _ _ pzero _ H) in M. exact M.
  - intros k q' Hk H. pose proof (nth_error_lt _ _ _ H) as Hk'.
    specialize (F k Hk). rewrite N in F by auto. rewrite (nth_error_nth_default _ _ pzero _ H) in F. exact F.
Qed.
Lemma nearest_in_fun l p q q' : nearest_in l p q -> nearest_in l p q' -> q = q'.
Proof.
  intros (j & E & M & F) (j' & E' & M' & F').
  destruct (Nat.lt_trichotomy j j') as [H|[->|H]].
  - specialize (F' j q H E). specialize (M q' (nth_error_In _ _ E')). lra.
  - congruence.
  - specialize (F j' q' H E'). specialize (M' q (nth_error_In _ _ E)). lra.
Qed.
Lemma nearest_exists l p : l <> [] -> exists q, nearest_in l p q.
Proof.
  intros N. destruct (argmin_Some (map (pdist p) l)) as (j & E); [destruct l; [contradiction|discriminate]|].
  apply argmin_nearest in E as [H _]. eauto.
Qed.

Lemma pdist_triangle p q r : pdist p r <= pdist p q + pdist q r.
Proof.
  unfold pdist. replace (psub p r) with (padd (psub p q) (psub q r)) by (apply pt_eq; cbn; lra). apply pnorm_triangle.
Qed.

(** * get_offsets *)
Lemma below_within x limit : below (Some x) limit = true <-> within limit x.
Proof. destruct limit; cbn; [apply Rltb_true|tauto]. Qed.
Lemma offset_to_way qs limit p : qs <> [] -> way_to qs limit p (offset_to (map Some qs) limit (Some p)).
Proof.
  intros N. unfold offset_to. rewrite vdist_row, nan_argmin_Some.
  destruct (argmin_Some (map (pdist p) qs)) as (j & Ej); [destruct qs; [contradiction|discriminate]|].
  rewrite Ej. apply argmin_nearest in Ej as [Nj Lj]. rewrite nth_map_Some by auto. cbn [vdist].
  exists (nth j qs pzero). split; auto.
  destruct (below (Some (pdist p (nth j qs pzero))) limit) eqn:B.
  - left. split; auto. apply below_within; auto.
  - right. split; auto. intro W. apply below_within in W. congruence.
Qed.
Lemma way_to_fun qs limit p w w' : way_to qs limit p w -> way_to qs limit p w' -> w = w'.
Proof.
  intros (q & N & K) (q' & N' & K'). rewrite (nearest_in_fun _ _ _ _ N N') in *.
  destruct K as [[A ->]|[A ->]], K' as [[B ->]|[B ->]]; auto; contradiction.
Qed.
Lemma get_offsets_finite left qs limit : qs <> [] ->
  exists parts, get_offsets (map Some left) (map Some qs) limit = Ok (concat parts) /\
    Forall2 (way_to qs limit) left parts.
Proof.
  intros N. exists (map (fun p => offset_to (map Some qs) limit (Some p)) left). split.
  - unfold get_offsets. destruct qs as [|q qs']; [contradiction|]. cbn [map].
    rewrite flat_map_concat_map, map_map. reflexivity.
  - induction left; cbn; constructor; auto. apply offset_to_way; auto.
Qed.

(** * Splitting by class *)
Lemma select_class {A} c (ps : list A) classes : length classes = length ps ->
  mask_select (class_mask c classes) ps = map fst (filter (fun pc => Z.eqb (snd pc) c) (combine ps classes)).
Proof.
  revert classes; induction ps as [|p ps IH]; intros [|z cl] L; try discriminate; auto.
  cbn in *. assert (L' : length cl = length ps) by lia. specialize (IH cl L'). unfold class_mask in IH.
  destruct (Z.eqb z c); cbn; rewrite IH; reflexivity.
Qed.
Lemma select_class_map {A B} (f : A -> B) c ps classes :
  mask_select (class_mask c classes) (map f ps) = map f (mask_select (class_mask c classes) ps).
Proof.
  revert ps; unfold class_mask. induction classes as [|z cl IH]; intros [|p ps]; cbn; auto.
  destruct (Z.eqb z c); cbn; rewrite IH; reflexivity.
Qed.
Lemma select_class_nil {A} c (ps : list A) classes : length classes = length ps ->
  mask_select (class_mask c classes) ps = [] <-> ~ In c classes.
Proof.
  revert classes; induction ps as [|p ps IH]; intros [|z cl] L; try discriminate.
  - cbn. tauto.
  - cbn in *. destruct (Z.eqb z c) eqn:E.
    + apply Z.eqb_eq in E. split; [discriminate|]. intros N. exfalso. apply N. auto.
    + apply Z.eqb_neq in E. assert (L' : length cl = length ps) by lia. specialize (IH cl L'). unfold class_mask in IH.
      rewrite IH. tauto.
Qed.
Lemma of_class_select c ps classes : length classes = length ps ->
  mask_select (class_mask c classes) ps = of_class c ps classes.
Proof. intros. unfold of_class. apply select_class; auto. Qed.

Lemma flat_map_ext_in {A B} (f g : A -> list B) l : (forall x, In x l -> f x = g x) -> flat_map f l = flat_map g l.
Proof. induction l as [|a l IH]; cbn; intros K; auto. rewrite K, IH; auto. Qed.
(** points class by class are the points *)
Lemma by_class_perm {A} (l : list (A * Z)) cs : NoDup cs -> (forall x, In x l -> In (snd x) cs) ->
  Permutation l (flat_map (fun c => filter (fun x => Z.eqb (snd x) c) l) cs).
Proof.
  revert l; induction cs as [|c cs IH]; intros l N K.
  - destruct l as [|x l]; auto. exfalso. exact (K x (or_introl eq_refl)).
  - inversion N; subst. cbn [flat_map].
    assert (P : Permutation l (filter (fun x => Z.eqb (snd x) c) l ++ filter (fun x => negb (Z.eqb (snd x) c)) l)).
    { clear. induction l as [|x l IH]; cbn; auto. destruct (Z.eqb (snd x) c); cbn.
      - constructor; auto.
      - apply Permutation_cons_app; auto. }
    eapply Permutation_trans; [exact P|]. apply Permutation_app_head.
    eapply Permutation_trans; [apply IH; auto|].
    { intros x Hx. apply filter_In in Hx as [Hx Hc]. destruct (K x Hx) as [->|Q]; auto.
      rewrite Z.eqb_refl in Hc. discriminate. }
    clear -H1. erewrite flat_map_ext_in; [apply Permutation_refl|]. intros d Hd. cbn beta.
    induction l as [|x l IH]; cbn; auto.
    destruct (Z.eqb (snd x) c) eqn:E1; cbn.
    + apply Z.eqb_eq in E1. destruct (Z.eqb (snd x) d) eqn:E2; auto. apply Z.eqb_eq in E2. congruence.
    + destruct (Z.eqb (snd x) d); rewrite IH; auto.
Qed.

Lemma Forall2_perm {A B} (P : A -> B -> Prop) l1 l2 m1 : Permutation l1 l2 -> Forall2 P l1 m1 ->
  exists m2, Forall2 P l2 m2 /\ Permutation m1 m2.
Proof.
  intros Pm; revert m1; induction Pm; intros m1 F.
  - inversion F; subst. exists []. auto.
  - inversion F; subst. destruct (IHPm _ H3) as (m2 & F2 & P2). exists (y :: m2). split; constructor; auto.
  - inversion F as [|? ? ? ? Fa F']; subst. inversion F' as [|? ? ? ? Fb F'']; subst.
    eexists. split; [constructor; [exact Fb|constructor; [exact Fa|exact F'']]|]. constructor.
  - destruct (IHPm1 _ F) as (m2 & F2 & P2). destruct (IHPm2 _ F2) as (m3 & F3 & P3).
    exists m3. split; auto. eapply Permutation_trans; eauto.
Qed.
Lemma Permutation_concat {A} (l l' : list (list A)) : Permutation l l' -> Permutation (concat l) (concat l').
Proof.
  induction 1; cbn; auto.
  - apply Permutation_app_head; auto.
  - rewrite !app_assoc. apply Permutation_app_tail. apply Permutation_app_comm.
  - eapply Permutation_trans; eauto.
Qed.
Lemma psum_perm l l' : Permutation l l' -> psum l = psum l'.
Proof.
  unfold psum. induction 1; cbn [fold_right]; auto.
  - rewrite IHPermutation. reflexivity.
  - apply pt_eq; cbn; lra.
  - congruence.
Qed.
Lemma pmean_perm l l' : Permutation l l' -> pmean l = pmean l'.
Proof. intros P. unfold pmean. rewrite (psum_perm _ _ P), (Permutation_length P). reflexivity. Qed.

(** * trimming *)
Lemma trim_offsets_trimmed asort trim offsets : argsort_ok asort ->
  trimmed trim offsets (trim_offsets asort trim offsets).
Proof.
  intros K. unfold trim_offsets, trimmed. split.
  - intros H. destruct (Rltb 0 trim) eqn:E; [rb; lra|]. auto.
  - intros H. destruct (Rltb 0 trim) eqn:E; [|rb; lra].
    set (n := length offsets). set (x := (1 - trim) * INR n).
    assert (Hx : 0 <= x <= INR n). { pose proof (pos_INR n). unfold x. nra. }
    assert (T : Ztrunc x = Zfloor x) by (apply Ztrunc_floor; lra).
    rewrite T. pose proof (Zfloor_lb x) as Lb. pose proof (Zfloor_ub x) as Ub.
    assert (P0 : (0 <= Zfloor x)%Z) by (apply Zfloor_lub; lra).
    replace (Zfloor x <? 0)%Z with false by (symmetry; apply Z.ltb_ge; lia).
    set (k := Z.to_nat (Zfloor x)).
    assert (Ek : INR k = IZR (Zfloor x)) by (unfold k; rewrite INR_IZR_INZ, Z2Nat.id; auto).
    assert (Lk : (k <= n)%nat). { apply INR_le. rewrite Ek. lra. }
    exists k. split; [rewrite Ek; lra|].
    set (sorted := asort (map pnorm offsets)).
    assert (Ps : Permutation sorted (seq 0 n)).
    { apply NoDup_Permutation; [apply (asort_nodup _ K)|apply seq_NoDup|].
      intro i. unfold sorted. rewrite (asort_indices _ K), map_length, in_seq. unfold n. lia. }
    assert (Ls : length sorted = n) by (rewrite (Permutation_length Ps), seq_length; auto).
    set (f := fun i => nth i offsets pzero).
    exists (map f (skipn k sorted)). split; [|split].
    + rewrite <- map_app, firstn_skipn.
      assert (Eo : offsets = map f (seq 0 n)).
      { unfold f, n. clear. induction offsets as [|a l IH]; auto. cbn [length seq map nth]. f_equal.
        rewrite <- seq_shift, map_map. exact IH. }
      rewrite Eo at 1. apply Permutation_map. apply Permutation_sym; auto.
    + rewrite map_length, firstn_length, Ls. lia.
    + intros a b Ha Hb. apply in_map_iff in Ha as (i & <- & Hi). apply in_map_iff in Hb as (j & <- & Hj).
      apply In_nth_error in Hi as (p & Hp). apply In_nth_error in Hj as (q & Hq).
      assert (Hpk : (p < k)%nat). { apply nth_error_lt in Hp. rewrite firstn_length in Hp. lia. }
      assert (Hp' : nth_error sorted p = Some i) by (rewrite <- Hp; symmetry; apply nth_error_firstn; auto).
      assert (Hq' : nth_error sorted (k + q) = Some j).
      { rewrite <- Hq. clearbody k. clear -q. generalize sorted as l. clear. induction k as [|k IH]; intros l; cbn; auto.
        destruct l as [|y l]; cbn; [destruct q; auto|apply IH]. }
      pose proof (asort_sorted _ K (map pnorm offsets) p (k + q)%nat i j ltac:(lia) Hp' Hq') as S1.
      assert (Nn : forall m, (m < n)%nat -> nth m (map pnorm offsets) 0 = pnorm (f m)).
      { intros m Hm. rewrite (nth_indep _ 0 (pnorm pzero)) by (rewrite map_length; auto). apply map_nth. }
      rewrite !Nn in S1; auto.
      * apply nth_error_In in Hq'. apply (asort_indices _ K) in Hq'. rewrite map_length in Hq'. auto.
      * apply nth_error_In in Hp'. apply (asort_indices _ K) in Hp'. rewrite map_length in Hp'. auto.
Qed.

(** * map_res *)
Lemma map_res_all_ok {A B} (f : A -> res B) l : (forall x, In x l -> exists y, f x = Ok y) ->
  exists ys, map_res f l = Ok ys /\ Forall2 (fun x y => f x = Ok y) l ys.
Proof.
  induction l as [|a l IH]; cbn; intros K; [eauto|].
  destruct (K a (or_introl eq_refl)) as (y & E). rewrite E. cbn.
  destruct IH as (ys & E2 & F). { intros; apply K; auto. }
  rewrite E2. cbn. eauto.
Qed.
Lemma map_res_first_raise {A B} (f : A -> res B) l e : (forall x, In x l -> (exists y, f x = Ok y) \/ f x = Raise e) ->
  (exists x, In x l /\ f x = Raise e) -> map_res f l = Raise e.
Proof.
  induction l as [|a l IH]; cbn; intros K (x & Hx & Ex); [destruct Hx|].
  destruct (K a (or_introl eq_refl)) as [(y & E)|E]; rewrite E; cbn; auto.
  rewrite IH; auto. destruct Hx as [->|Hx]; [congruence|eauto].
Qed.

(** * one iteration *)
Section Iteration.
Variable asort : argsort_fn.
Variable new : list pt.
Variable reference : list vec.
Variables new_classes ref_classes : list Z.
Variable limit : option R.
Variable trim : R.

Notation mean_offset := (mean_offset asort new reference new_classes ref_classes limit trim).

Lemma classes_of_nil : classes_of new_classes = [] <-> new_classes = [].
Proof.
  unfold classes_of. destruct new_classes as [|c l]; [split; auto|].
  split; [|discriminate]. intros E. assert (H : In c (nodup Z.eq_dec (c :: l))) by (apply nodup_In; left; auto).
  rewrite E in H. destruct H.
Qed.

(** what goes wrong does not depend on the drift *)
Lemma mean_offset_raise d noise e : mean_offset d noise = Raise e <->
  (e = ValueError /\ new_classes = []) \/
  (e = IndexError /\ new_classes <> [] /\ (length new_classes <> length new \/ length ref_classes <> length reference)) \/
  (e = ValueError /\ new_classes <> [] /\ length new_classes = length new /\ length ref_classes = length reference /\
     ~ classes_known new_classes ref_classes).
Proof.
  unfold Alignment.mean_offset. destruct (classes_of new_classes) as [|c0 cs0] eqn:Ec.
  { apply classes_of_nil in Ec. split; [intro Q; left; split; congruence|].
    intros [(-> & _)|[(_ & N & _)|(_ & N & _)]]; congruence. }
  assert (Nn : new_classes <> []) by (intro Q; apply classes_of_nil in Q; congruence).
  rewrite <- Ec. clear c0 cs0 Ec.
  destruct (Nat.eqb_spec (length new_classes) (length new)) as [L1|L1]; cbn [negb].
  2:{ split; [intro Q; right; left; repeat split; auto; congruence|].
      intros [(_ & N)|[(-> & _)|(_ & _ & L & _)]]; try congruence. }
  destruct (Nat.eqb_spec (length ref_classes) (length reference)) as [L2|L2]; cbn [negb].
  2:{ split; [intro Q; right; left; repeat split; auto; congruence|].
      intros [(_ & N)|[(-> & _)|(_ & _ & _ & L & _)]]; try congruence. }
  set (f := fun c => get_offsets _ _ limit).
  assert (Hf : forall c, (In c ref_classes -> exists y, f c = Ok y) /\ (~ In c ref_classes -> f c = Raise ValueError)).
  { intro c. unfold f, get_offsets. pose proof (select_class_nil c reference ref_classes L2) as Q.
    destruct (mask_select (class_mask c ref_classes) reference) as [|r rs].
    - split; [intro H; exfalso; apply Q in H; auto|auto].
    - split; [eauto|]. intros H. apply Q in H. discriminate. }
  destruct (forallb (fun c => if in_dec Z.eq_dec c ref_classes then true else false) new_classes) eqn:Fb.
  - assert (Kn : classes_known new_classes ref_classes).
    { intros c Hc. rewrite forallb_forall in Fb. specialize (Fb c Hc). destruct (in_dec Z.eq_dec c ref_classes); auto; discriminate. }
    destruct (map_res_all_ok f (classes_of new_classes)) as (ys & E & _).
    { intros c Hc. apply Hf. apply Kn. unfold classes_of in Hc. apply nodup_In in Hc. auto. }
    rewrite E. cbn. split; [discriminate|]. intros [(_ & N)|[(_ & _ & [L|L])|(_ & _ & _ & _ & N)]]; contradiction.
  - assert (Kn : exists c, In c new_classes /\ ~ In c ref_classes).
    { clear -Fb. induction new_classes as [|c l IH]; cbn in Fb; [discriminate|].
      destruct (in_dec Z.eq_dec c ref_classes) as [H|H].
      - destruct (IH Fb) as (c' & H1 & H2). exists c'. split; [right|]; auto.
      - exists c. split; [left|]; auto. }
    destruct Kn as (c & H1 & H2).
    rewrite (map_res_first_raise f (classes_of new_classes) ValueError).
    + cbn. split.
      * intro Q. right; right. repeat split; auto; try congruence.
      * intros [(-> & _)|[(_ & _ & [L|L])|(-> & _)]]; auto; contradiction.
    + intros x Hx. destruct (in_dec Z.eq_dec x ref_classes) as [H|H]; [left|right]; apply Hf; auto.
    + exists c. split; [apply nodup_In; auto|apply Hf; auto].
Qed.
Lemma mean_offset_not_fuel d noise : mean_offset d noise <> OutOfFuel.
Proof.
  unfold Alignment.mean_offset. destruct (classes_of new_classes); [discriminate|].
  destruct (negb _); [discriminate|]. destruct (negb _); [discriminate|].
  intro K. assert (F : forall (f : Z -> res (list pt)) l, (forall x, f x <> OutOfFuel) -> map_res f l <> OutOfFuel).
  { clear. induction l as [|a l IH]; intros H; cbn; [discriminate|]. specialize (H a) as Ha.
    destruct (f a); cbn; try congruence. specialize (IH H). destruct (map_res f l); cbn; congruence. }
  match type of K with bind (map_res ?f ?l) _ = _ => specialize (F f l); destruct (map_res f l); cbn in K; try discriminate end.
  apply F; auto. intros x. unfold get_offsets. destruct (mask_select _ reference); discriminate.
Qed.

(** without a drift there are no offsets *)
Lemma mean_offset_nan noise x : mean_offset None noise = Ok x -> 0 <= trim -> x = None.
Proof.
  unfold Alignment.mean_offset. destruct (classes_of new_classes); [discriminate|].
  destruct (negb _); [discriminate|]. destruct (negb _); [discriminate|].
  set (cur := map _ new). intros K _.
  assert (Ec : forall v, In v cur -> v = None) by (intros v Hv; apply in_map_iff in Hv as (p & <- & _); reflexivity).
  assert (Es : forall c, forall v, In v (mask_select (class_mask c new_classes) cur) -> v = None).
  { intros c v Hv. apply mask_select_In in Hv. auto. }
  match type of K with bind (map_res ?f ?l) _ = _ => destruct (map_res f l) as [ys|e|] eqn:Em; cbn in K; try discriminate end.
  assert (Y : concat ys = []).
  { clear K. revert ys Em. generalize (z :: l). clear -Es. intros cs. induction cs as [|c cs IH]; intros ys Em; cbn in Em.
    - injection Em as <-. reflexivity.
    - unfold get_offsets in Em at 1. destruct (mask_select (class_mask c ref_classes) reference) as [|r rs]; [discriminate|].
      cbn [bind] in Em.
      match type of Em with bind ?r _ = _ => destruct r as [ys'|e|] eqn:Em'; cbn in Em; try discriminate end.
      injection Em as <-. cbn [concat]. rewrite (IH ys' eq_refl), app_nil_r.
      specialize (Es c). clear -Es. induction (mask_select (class_mask c new_classes) cur) as [|v vs IH]; auto.
      cbn [flat_map]. rewrite IH by (intros; apply Es; right; auto). rewrite app_nil_r.
      rewrite (Es v) by (left; auto). unfold offset_to.
      destruct (nan_argmin _); auto. destruct (nth n (r :: rs) None); auto. }
  rewrite Y in K. injection K as <-. unfold trim_offsets. destruct (Rltb 0 trim); auto.
  cbn [length map]. destruct (_ <? 0)%Z; cbn.
  - reflexivity.
  - replace ((1 - trim) * 0) with 0 by lra. rewrite Ztrunc_IZR. cbn. reflexivity.
Qed.
End Iteration.

Lemma vmean_Some l : l <> [] -> vmean l = Some (pmean l).
Proof. destruct l; [contradiction|reflexivity]. Qed.

Lemma mean_offset_finite asort new ref new_classes ref_classes limit trim d noise x : argsort_ok asort ->
  trim <= 1 ->
  mean_offset asort new (map Some ref) new_classes ref_classes limit trim (Some d) noise = Ok x ->
  exists offsets kept, ways new new_classes ref ref_classes limit (padd d noise) offsets /\
    trimmed trim offsets kept /\ x = vmean kept.
Proof.
  intros K Ht E. unfold mean_offset in E.
  destruct (classes_of new_classes) as [|c0 cs0] eqn:Ec; [discriminate|].
  destruct (Nat.eqb_spec (length new_classes) (length new)) as [L1|L1]; cbn [negb] in E; [|discriminate].
  destruct (Nat.eqb_spec (length ref_classes) (@length vec (map Some ref))) as [L2|L2]; cbn [negb] in E; [|discriminate].
  rewrite map_length in L2. rewrite <- Ec in E. clear c0 cs0 Ec.
  match type of E with bind (map_res ?f ?l) _ = _ => set (g := f) in E; destruct (map_res g l) as [ys|e|] eqn:Em; cbn [bind] in E; try discriminate E end.
  injection E as <-.
  set (cur := fun p => padd p (padd d noise)).
  assert (Hcur : map (fun p : pt => vadd (vadd (Some p) (Some d)) (Some noise)) new = map Some (map cur new)).
  { rewrite map_map. apply map_ext. intro p. cbn. f_equal. apply pt_eq; unfold cur; cbn; lra. }
  assert (Parts : forall cs ys, map_res g cs = Ok ys ->
    exists parts, concat ys = concat parts /\
      Forall2 (fun pc way => way_to (of_class (snd pc) ref ref_classes) limit (cur (fst pc)) way)
        (flat_map (fun c => filter (fun x => Z.eqb (snd x) c) (combine new new_classes)) cs) parts).
  { clear Em ys. induction cs as [|c cs IH]; intros ys Em; cbn [map_res] in Em.
    - injection Em as <-. exists []. split; auto. constructor.
    - destruct (g c) as [y|e|] eqn:Eg; try discriminate. cbn [bind] in Em.
      destruct (map_res g cs) as [ys'|e|]; try discriminate. cbn in Em. injection Em as <-.
      destruct (IH ys' eq_refl) as (parts & E2 & F2).
      unfold g in Eg. rewrite Hcur, !select_class_map, !of_class_select in Eg by auto.
      destruct (of_class c ref ref_classes) as [|q qs] eqn:Eq; [discriminate|].
      destruct (get_offsets_finite (map cur (of_class c new new_classes)) (q :: qs) limit) as (ps & E3 & F3); [discriminate|].
      assert (Ey : Ok y = Ok (concat ps)) by (rewrite <- E3; exact (eq_sym Eg)). injection Ey as ->.
      exists (ps ++ parts). split; [cbn [concat]; rewrite concat_app; congruence|].
      cbn [flat_map]. apply Forall2_app; auto.
      unfold of_class in F3. clear -F3 Eq.
      assert (Al : forall x, In x (filter (fun pc : pt * Z => Z.eqb (snd pc) c) (combine new new_classes)) -> snd x = c).
      { intros x Hx. apply filter_In in Hx as [_ Hx]. apply Z.eqb_eq in Hx. auto. }
      revert ps F3 Al. induction (filter _ (combine new new_classes)) as [|x l IH]; intros ps F3 Al; inversion F3; subst; constructor.
      + rewrite (Al x) by (left; auto). rewrite Eq. auto.
      + apply IH; auto. intros; apply Al; right; auto. }
  destruct (Parts _ _ Em) as (parts & E2 & F2).
  assert (Pm : Permutation (combine new new_classes) (flat_map (fun c => filter (fun x => Z.eqb (snd x) c) (combine new new_classes)) (classes_of new_classes))).
  { apply by_class_perm; [apply NoDup_nodup|]. intros [p c] Hx. apply in_combine_r in Hx. cbn. apply nodup_In. auto. }
  destruct (Forall2_perm _ _ _ _ (Permutation_sym Pm) F2) as (parts' & F3 & P3).
  exists (concat parts'), (trim_offsets asort trim (concat ys)). split; [exists parts'; auto|]. split; auto.
  pose proof (trim_offsets_trimmed asort trim (concat ys) K) as T.
  rewrite E2 in *. apply Permutation_concat in P3. revert T. generalize (trim_offsets asort trim (concat parts)). intros kept [T1 T2].
  split.
  - intros H. eapply Permutation_trans; [apply Permutation_sym; exact P3|auto].
  - intros H. destruct (T2 H) as (k & Hk & dr & Pd & Lk & Sh). exists k. rewrite <- (Permutation_length P3).
    split; auto. exists dr. split; auto. eapply Permutation_trans; [apply Permutation_sym; exact P3|auto].
Qed.

(** * the loop *)
Section Loop.
Context {G : Type}.
Variable s : sampler G.
Variable asort : argsort_fn.
Hypothesis Ka : argsort_ok asort.

Lemma draw_noise_drawn scale g : noise_drawn s scale g (fst (draw_noise s scale g)) (snd (draw_noise s scale g)).
Proof.
  unfold draw_noise, noise_drawn. destruct (Reqb scale 0) eqn:E; rb.
  - subst. cbn. split; auto. intros N; congruence.
  - split; [congruence|]. intros _. destruct (s_normal s 1 g) as [x g1] eqn:E1. exists g1.
    destruct (s_normal s 1 g1) as [y g2] eqn:E2. cbn. auto.
Qed.

Lemma clip_drift_spec max_shift e : 
  (pnorm e <= max_shift /\ clip_drift max_shift (Some e) = (Some e, false)) \/
  (max_shift < pnorm e /\ clip_drift max_shift (Some e) = (Some (pscale (max_shift / pnorm e) e), true)).
Proof.
  unfold clip_drift. destruct (Rltb max_shift (pnorm e)) eqn:E; rb.
  - right. split; auto. do 2 f_equal. apply pt_eq; cbn; unfold Rdiv; ring.
  - left. auto.
Qed.

Lemma loop_iterations new ref new_classes ref_classes max_shift limit trim scales : 0 <= trim <= 1 ->
  forall d shared init g al, align_loop s asort new (map Some ref) new_classes ref_classes max_shift limit trim scales d shared init g = al ->
  forall d', al_result al = Ok d' ->
  iterations s new new_classes ref ref_classes max_shift limit trim scales d shared init g d' (al_shared al) (al_init al) (al_rng al).
Proof.
  intros Ht. induction scales as [|scale scales IH]; intros d shared init g al E d' Ed; cbn [align_loop] in E.
  - subst al. cbn in *. injection Ed as <-. constructor.
  - pose proof (draw_noise_drawn scale g) as Dn. destruct (draw_noise s scale g) as [noise g1]. cbn [fst snd] in Dn.
    destruct (mean_offset asort new (map Some ref) new_classes ref_classes limit trim d noise) as [offset|e|] eqn:Em;
      try (subst al; discriminate).
    destruct d as [d|].
    + destruct (mean_offset_finite _ _ _ _ _ _ _ _ _ _ Ka (proj2 Ht) Em) as (offsets & kept & W & T & ->).
      destruct kept as [|k0 kept'] eqn:Ek.
      * cbn [vmean vadd clip_drift] in E.
        eapply iterations_more; [exact Dn| |eapply IH; eauto].
        cbn. exists offsets, []. split; auto. split; auto.
      * rewrite vmean_Some in E by discriminate. cbn [vadd] in E. rewrite <- Ek in *.
        destruct (clip_drift_spec max_shift (padd d (padd noise (pmean kept)))) as [[Hc Ec]|[Hc Ec]]; rewrite Ec in E.
        -- eapply iterations_more; [exact Dn| |eapply IH; eauto].
           cbn. exists offsets, kept. split; auto. split; auto. right. split; [subst kept; discriminate|]. split; eauto.
        -- eapply iterations_more; [exact Dn| |eapply IH; eauto].
           cbn. exists offsets, kept. split; auto. split; auto. right. split; [subst kept; discriminate|]. split; eauto.
    + pose proof (mean_offset_nan _ _ _ _ _ _ _ _ _ Em (proj1 Ht)) as ->. cbn [vadd clip_drift] in E.
      eapply iterations_more; [exact Dn| |eapply IH; eauto]. cbn. auto.
Qed.

(** a call raises at its first iteration or not at all *)
Lemma loop_raise new reference new_classes ref_classes max_shift limit trim scales d shared init g e :
  let al := align_loop s asort new reference new_classes ref_classes max_shift limit trim scales d shared init g in
  al_result al <> OutOfFuel /\
  (al_result al = Raise e <-> scales <> [] /\ mean_offset asort new reference new_classes ref_classes limit trim d pzero = Raise e).
Proof.
  revert d shared init g. induction scales as [|scale scales IH]; intros d shared init g; cbn [align_loop].
  - cbn. split; [discriminate|]. split; [discriminate|]. intros [N _]; congruence.
  - destruct (draw_noise s scale g) as [noise g1].
    assert (Sw : forall d d' n n', mean_offset asort new reference new_classes ref_classes limit trim d n = Raise e <->
                 mean_offset asort new reference new_classes ref_classes limit trim d' n' = Raise e).
    { intros. rewrite !mean_offset_raise. tauto. }
    destruct (mean_offset asort new reference new_classes ref_classes limit trim d noise) as [offset|e'|] eqn:Em.
    + destruct (clip_drift max_shift _) as [d2 fresh].
      destruct (IH d2 (shared && negb fresh)%bool (if shared then vadd d (vadd (Some noise) offset) else init) g1) as [A B].
      split; auto. rewrite B. split.
      * intros [_ H]. split; [discriminate|]. rewrite <- (Sw d2 d pzero pzero). auto.
      * intros [_ H]. rewrite (Sw d d pzero noise) in H. congruence.
    + cbn. split; [discriminate|]. split.
      * intros Q. injection Q as ->. split; [discriminate|]. rewrite (Sw d d pzero noise). auto.
      * intros [_ H]. rewrite (Sw d d pzero noise) in H. congruence.
    + exfalso. eapply mean_offset_not_fuel; eauto.
Qed.

Lemma scales_annealing noise_scale n : annealing noise_scale n (map (noise_scale_at noise_scale n) (seq 0 n)).
Proof.
  split; [rewrite map_length, seq_length; auto|].
  intros i x H. apply nth_error_map_Some in H as (j & Hj & ->).
  assert (j = i). { pose proof (nth_error_lt _ _ _ Hj) as L. rewrite seq_length in L.
    apply (nth_error_nth_default _ _ 0%nat) in Hj. rewrite seq_nth in Hj by auto. lia. }
  subst j. unfold noise_scale_at. split.
  - intros ->. reflexivity.
  - intros Hn. destruct (Nat.eqb_spec n 1); [lia|]. rewrite minus_INR by lia. cbn [INR].
    assert (INR n - 1 <> 0). { pose proof (lt_INR 1 n Hn). cbn in H. lra. }
    field; auto.
Qed.
End Loop.

(** * a stable argsort *)
Definition argsort_stable (l : list R) : list nat := sort_by (fun i => nth i l 0) (seq 0 (length l)).
Lemma argsort_stable_ok : argsort_ok argsort_stable.
Proof.
  constructor.
  - intros l i. unfold argsort_stable. split; intro H.
    + apply (Permutation_in _ (Permutation_sym (sort_by_perm _ _))) in H. apply in_seq in H. lia.
    + apply (Permutation_in _ (sort_by_perm _ _)). apply in_seq. lia.
  - intros l. eapply Permutation_NoDup; [apply sort_by_perm|apply seq_NoDup].
  - intros l a b i j Hab Ha Hb. exact (SSorted_nth _ _ _ _ _ _ (sort_by_sorted _ _) Hab Ha Hb).
Qed.
