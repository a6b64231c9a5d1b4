(** C116: the U-nets *)
From Coq Require Import Reals ZArith List Bool Arith Lia Lra.
From Verif Require Import Base.Prelude Model.LearningSteps Model.GraphNet Model.UNet Proofs.BaseFacts Proofs.GraphNetFacts Spec.UNet.
Import ListNotations.
Open Scope R_scope.
Open Scope list_scope.
Open Scope res_scope.

(** * sizes *)
Lemma halve_divide m h : Nat.divide (2 ^ S m) h <-> (2 * (h / 2) = h)%nat /\ Nat.divide (2 ^ m) (h / 2).
Proof.
  rewrite Nat.pow_succ_r'. split.
  - intros (k & ->). replace (k * (2 * 2 ^ m))%nat with ((k * 2 ^ m) * 2)%nat by ring. rewrite Nat.div_mul by lia. split; [lia|]. exists k. reflexivity.
  - intros [E (k & Hk)]. exists k. rewrite <- E, Hk. ring.
Qed.
Lemma recurse_size p features : features <> [] -> forall depth x,
  (Nat.divide (2 ^ (length features - 1)) (tn_rows x) /\ Nat.divide (2 ^ (length features - 1)) (tn_cols x) ->
   exists y b, recurse p depth features x = Ok (y, b) /\ tn_rows y = tn_rows x /\ tn_cols y = tn_cols x /\
     tn_rows b = (tn_rows x / 2 ^ (length features - 1))%nat /\ tn_cols b = (tn_cols x / 2 ^ (length features - 1))%nat) /\
  (~ (Nat.divide (2 ^ (length features - 1)) (tn_rows x) /\ Nat.divide (2 ^ (length features - 1)) (tn_cols x)) -> recurse p depth features x = Raise TypeError).
Proof.
  induction features as [|f rest IH]; intros Ne depth x; [contradiction|]. destruct rest as [|g rest].
  - cbn [length Nat.sub Nat.pow]. split; [|intros H; exfalso; apply H; split; apply Nat.divide_1_l]. intros _. eexists _, _. split; [reflexivity|]. rewrite !Nat.div_1_r. auto.
  - specialize (IH ltac:(discriminate) (S depth) (max_pool (conv 3 (un_down p depth) x))). destruct IH as [IH1 IH2]. cbn [tn_rows tn_cols max_pool conv] in IH1, IH2.
    change (recurse p depth (f :: g :: rest) x) with (r <- recurse p (S depth) (g :: rest) (max_pool (conv 3 (un_down p depth) x)) ;; x0 <- concatenate (conv_transpose (un_transpose p depth) (fst r)) (conv 3 (un_down p depth) x) ;; Ok (conv 3 (un_up p depth) x0, snd r)).
    replace (length (f :: g :: rest) - 1)%nat with (S (length (g :: rest) - 1)) by (cbn; lia). set (m := (length (g :: rest) - 1)%nat) in *.
    split.
    + intros [Hr Hc]. pose proof (proj1 (halve_divide _ _) Hr) as [Er Dr]. pose proof (proj1 (halve_divide _ _) Hc) as [Ec Dc]. destruct (IH1 (conj Dr Dc)) as (y & b & -> & Yr & Yc & Br & Bc). cbn [bind fst snd]. unfold concatenate. cbn [tn_rows tn_cols conv_transpose conv]. rewrite Yr, Yc, Er, Ec, !Nat.eqb_refl. cbn [andb bind].
      eexists _, _. split; [reflexivity|]. cbn [tn_rows tn_cols conv conv_transpose]. rewrite Br, Bc. rewrite !Nat.div_div by (try apply Nat.pow_nonzero; lia). rewrite <- Nat.pow_succ_r'. auto.
    + intros N. destruct (Nat.eq_dec (2 * (tn_rows x / 2)) (tn_rows x)) as [Er|Er].
      * destruct (Nat.eq_dec (2 * (tn_cols x / 2)) (tn_cols x)) as [Ec|Ec].
        -- rewrite IH2; [reflexivity|]. intros [A B]. apply N. split; apply halve_divide; auto.
        -- destruct (Nat.eq_dec ((tn_rows x / 2) mod 2 ^ m) 0) as [A|A]; [destruct (Nat.eq_dec ((tn_cols x / 2) mod 2 ^ m) 0) as [B|B]|].
           ++ apply Nat.mod_divide in A; [|apply Nat.pow_nonzero; lia]. apply Nat.mod_divide in B; [|apply Nat.pow_nonzero; lia]. destruct (IH1 (conj A B)) as (y & b & -> & Yr & Yc & _). cbn [bind fst]. unfold concatenate. cbn [tn_rows tn_cols conv_transpose conv]. rewrite Yr, Yc, Er. replace (2 * (tn_cols x / 2) =? tn_cols x)%nat with false by (symmetry; apply Nat.eqb_neq; auto). rewrite andb_false_r. reflexivity.
           ++ rewrite IH2; [reflexivity|]. intros [_ C]. apply Nat.mod_divide in C; [contradiction|apply Nat.pow_nonzero; lia].
           ++ rewrite IH2; [reflexivity|]. intros [C _]. apply Nat.mod_divide in C; [contradiction|apply Nat.pow_nonzero; lia].
      * destruct (Nat.eq_dec ((tn_rows x / 2) mod 2 ^ m) 0) as [A|A]; [destruct (Nat.eq_dec ((tn_cols x / 2) mod 2 ^ m) 0) as [B|B]|].
        -- apply Nat.mod_divide in A; [|apply Nat.pow_nonzero; lia]. apply Nat.mod_divide in B; [|apply Nat.pow_nonzero; lia]. destruct (IH1 (conj A B)) as (y & b & -> & Yr & Yc & _). cbn [bind fst]. unfold concatenate. cbn [tn_rows tn_cols conv_transpose conv]. rewrite Yr. replace (2 * (tn_rows x / 2) =? tn_rows x)%nat with false by (symmetry; apply Nat.eqb_neq; auto). reflexivity.
        -- rewrite IH2; [reflexivity|]. intros [_ C]. apply Nat.mod_divide in C; [contradiction|apply Nat.pow_nonzero; lia].
        -- rewrite IH2; [reflexivity|]. intros [C _]. apply Nat.mod_divide in C; [contradiction|apply Nat.pow_nonzero; lia].
Qed.
Lemma recurse_cases p features depth x : features <> [] ->
  (exists y b, recurse p depth features x = Ok (y, b)) \/ recurse p depth features x = Raise TypeError.
Proof.
  intros Ne. destruct (recurse_size p features Ne depth x) as [A B].
  assert (P : (2 ^ (length features - 1) <> 0)%nat) by (apply Nat.pow_nonzero; lia).
  destruct (Nat.eq_dec (tn_rows x mod 2 ^ (length features - 1)) 0) as [E1|E1]; [destruct (Nat.eq_dec (tn_cols x mod 2 ^ (length features - 1)) 0) as [E2|E2]|].
  - left. apply Nat.mod_divide in E1; [|auto]. apply Nat.mod_divide in E2; [|auto]. destruct (A (conj E1 E2)) as (y & b & H & _). eauto.
  - right. apply B. intros [_ C]. apply Nat.mod_divide in C; auto.
  - right. apply B. intros [C _]. apply Nat.mod_divide in C; auto.
Qed.
Lemma vsum_length width l : (forall v, In v l -> length v = width) -> length (vsum width l) = width.
Proof.
  intros H. unfold vsum. induction l as [|v l IH]; [apply repeat_length|]. cbn [fold_right]. unfold vadd at 1. rewrite map2_length; [apply H; left; auto|]. rewrite IH by (intros; apply H; right; auto). apply H. left. auto.
Qed.
Lemma conv_channels size l x i j : regular l -> length (tn_pixel (conv size l x) i j) = ly_channels l.
Proof.
  intros [T P]. cbn [tn_pixel conv]. rewrite P. apply vsum_length. intros v Hv. apply in_flat_map in Hv. destruct Hv as (a & _ & Hv). apply in_flat_map in Hv. destruct Hv as (b & _ & Hv). destruct (tap_source (size / 2) (tn_rows x) i a); [|contradiction]. destruct (tap_source (size / 2) (tn_cols x) j b); [|contradiction]. destruct Hv as [<-|[]]. apply T.
Qed.
(** C116: with n levels a U-net takes exactly the images whose rows and columns 2^(n-1) divides, for other sizes
    it raises; the result has the size of the image and the configured channels *)
Theorem unet_sizes p features x : features <> [] -> regular (un_output p) ->
  (Nat.divide (2 ^ (length features - 1)) (tn_rows x) /\ Nat.divide (2 ^ (length features - 1)) (tn_cols x) ->
   exists y, unet_call p features x = Ok y /\ tn_rows y = tn_rows x /\ tn_cols y = tn_cols x /\ forall i j, length (tn_pixel y i j) = ly_channels (un_output p)) /\
  (~ (Nat.divide (2 ^ (length features - 1)) (tn_rows x) /\ Nat.divide (2 ^ (length features - 1)) (tn_cols x)) -> unet_call p features x = Raise TypeError).
Proof.
  intros Ne Reg. destruct (recurse_size p features Ne 0 x) as [A B]. unfold unet_call. split.
  - intros H. destruct (A H) as (y & b & -> & Yr & Yc & _). cbn [bind fst]. eexists. split; [reflexivity|]. split; [exact Yr|]. split; [exact Yc|]. intros i j. apply conv_channels. auto.
  - intros H. rewrite (B H). reflexivity.
Qed.
(** C116: the same for the net with global outputs, that also returns what its last layer makes of a mean over
    the pixels at the bottom *)
Theorem global_local_sizes p features x : features <> [] -> regular (un_output p) ->
  (Nat.divide (2 ^ (length features - 1)) (tn_rows x) /\ Nat.divide (2 ^ (length features - 1)) (tn_cols x) ->
   exists y bottom, global_local_call p features x = Ok (y, un_dense p (vmean (ly_channels (un_global p)) bottom)) /\ tn_rows y = tn_rows x /\ tn_cols y = tn_cols x /\
     (forall i j, length (tn_pixel y i j) = ly_channels (un_output p)) /\
     length bottom = ((tn_rows x / 2 ^ (length features - 1)) * (tn_cols x / 2 ^ (length features - 1)))%nat) /\
  (~ (Nat.divide (2 ^ (length features - 1)) (tn_rows x) /\ Nat.divide (2 ^ (length features - 1)) (tn_cols x)) -> global_local_call p features x = Raise TypeError).
Proof.
  intros Ne Reg. destruct (recurse_size p features Ne 0 (conv 7 (un_input p) x)) as [A B]. cbn [tn_rows tn_cols conv] in A, B. unfold global_local_call. destruct features as [|f rest]; [contradiction|]. split.
  - intros H. destruct (A H) as (y & b & -> & Yr & Yc & Br & Bc). cbn [bind fst snd]. unfold pixel_mean. eexists _, _. split; [reflexivity|]. split; [exact Yr|]. split; [exact Yc|]. split; [intros i j; apply conv_channels; auto|].
    cbn [tn_rows tn_cols conv]. rewrite <- Br, <- Bc. generalize (tn_rows b), (tn_cols b). intros n m. assert (G : forall l : list nat, length (flat_map (fun i => map (fun j => tn_pixel (conv 1 (un_global p) b) i j) (seq 0 m)) l) = (length l * m)%nat). { induction l as [|z l IHl]; [reflexivity|]. cbn [flat_map]. rewrite app_length, map_length, seq_length, IHl. reflexivity. } rewrite G, seq_length. reflexivity.
  - intros H. rewrite (B H). reflexivity.
Qed.
(** C116: without features there is no net *)
Theorem no_features p x : unet_call p [] x = Raise IndexError /\ global_local_call p [] x = Raise IndexError.
Proof. split; reflexivity. Qed.

(** * how far a net looks *)
Lemma flat_map_ext_in' {A B} (f g : A -> list B) l : (forall x, In x l -> f x = g x) -> flat_map f l = flat_map g l.
Proof. induction l as [|x l IH]; intros H; [reflexivity|]. cbn. rewrite H by (left; auto). rewrite IH by (intros; apply H; right; auto). reflexivity. Qed.
Lemma tap_bounds pad limit i a u : tap_source pad limit i a = Some u -> (u < limit /\ u + pad = i + a)%nat.
Proof. unfold tap_source. destruct (_ && _) eqn:E; [|discriminate]. intros H. injection H as <-. apply andb_prop in E. destruct E as [E1 E2]. apply Nat.leb_le in E1. apply Nat.ltb_lt in E2. lia. Qed.
Lemma conv_near size l r i j x x' : alike_near (r + size / 2) i j x x' -> alike_near r i j (conv size l x) (conv size l x').
Proof.
  intros (Er & Ec & H). split; [exact Er|]. split; [exact Ec|]. cbn [tn_rows tn_cols conv tn_pixel]. intros u v Hu Hv Nu Nv. rewrite <- Er, <- Ec. f_equal. f_equal. apply flat_map_ext_in'. intros a Ha. apply in_seq in Ha. apply flat_map_ext_in'. intros b Hb. apply in_seq in Hb.
  destruct (tap_source _ (tn_rows x) u a) as [s|] eqn:Es; [|reflexivity]. destruct (tap_source _ (tn_cols x) v b) as [t|] eqn:Et; [|reflexivity]. apply tap_bounds in Es. apply tap_bounds in Et. f_equal. f_equal.
  pose proof (Nat.div_mod size 2 ltac:(lia)) as D. pose proof (Nat.mod_upper_bound size 2 ltac:(lia)) as Mb. generalize dependent (size / 2)%nat. generalize dependent (size mod 2)%nat. intros. apply H; lia.
Qed.
Lemma alike_mono r r' i j x x' : (r <= r')%nat -> alike_near r' i j x x' -> alike_near r i j x x'.
Proof. intros L (A & B & H). split; [auto|]. split; [auto|]. intros u v Hu Hv Nu Nv. apply H; lia. Qed.
Lemma alike_shift r d i j i' j' x x' : (i <= i' + d /\ i' <= i + d)%nat -> (j <= j' + d /\ j' <= j + d)%nat -> alike_near (r + d) i j x x' -> alike_near r i' j' x x'.
Proof. intros Hi Hj (A & B & H). split; [auto|]. split; [auto|]. intros u v Hu Hv Nu Nv. apply H; lia. Qed.
(** pixels i, i' at this depth: pooled ones whose sources are near *)
Lemma pool_near r i j x x' : tn_rows x = tn_rows x' -> tn_cols x = tn_cols x' ->
  (forall u v, (u < tn_rows x)%nat -> (v < tn_cols x)%nat -> (2 * i <= u + 2 * r /\ u <= 2 * i + (2 * r + 1))%nat -> (2 * j <= v + 2 * r /\ v <= 2 * j + (2 * r + 1))%nat -> tn_pixel x u v = tn_pixel x' u v) ->
  alike_near r i j (max_pool x) (max_pool x').
Proof.
  intros A B H. split; [cbn; rewrite A; reflexivity|]. split; [cbn; rewrite B; reflexivity|]. cbn [tn_rows tn_cols max_pool tn_pixel]. intros u v Hu Hv Nu Nv.
  pose proof (Nat.div_mod (tn_rows x) 2 ltac:(lia)) as D1. pose proof (Nat.div_mod (tn_cols x) 2 ltac:(lia)) as D2. rewrite !H by lia. reflexivity.
Qed.
Lemma stretched_bounds limit i a u : stretched_source limit i a = Some u -> (u < limit /\ 2 * u + 2 = i + a)%nat.
Proof.
  unfold stretched_source. destruct (_ && _) eqn:E; [|discriminate]. intros H. assert (Hu : u = ((i + a - 2) / 2)%nat) by congruence. clear H. subst u. apply andb_prop in E. destruct E as [E1 E3]. apply andb_prop in E1. destruct E1 as [E1 E2]. apply Nat.leb_le in E1. apply Nat.ltb_lt in E3. split; [auto|].
  apply Nat.even_spec in E2. destruct E2 as (k & Hk). replace (i + a - 2)%nat with ((k - 1) * 2)%nat by lia. rewrite Nat.div_mul by lia. lia.
Qed.
(** a pixel of the transposed convolution depends on one or two rows above *)
Lemma transpose_near l i j y y' : tn_rows y = tn_rows y' -> tn_cols y = tn_cols y' ->
  (forall u v, (u < tn_rows y)%nat -> (v < tn_cols y)%nat -> (i <= 2 * u + 2 /\ 2 * u <= i)%nat -> (j <= 2 * v + 2 /\ 2 * v <= j)%nat -> tn_pixel y u v = tn_pixel y' u v) ->
  tn_pixel (conv_transpose l y) i j = tn_pixel (conv_transpose l y') i j.
Proof.
  intros A B H. cbn [tn_pixel conv_transpose]. rewrite <- A, <- B. f_equal. f_equal. apply flat_map_ext_in'. intros a Ha. apply in_seq in Ha. apply flat_map_ext_in'. intros b Hb. apply in_seq in Hb.
  destruct (stretched_source (tn_rows y) i a) as [s|] eqn:Es; [|reflexivity]. destruct (stretched_source (tn_cols y) j b) as [t|] eqn:Et; [|reflexivity]. apply stretched_bounds in Es. apply stretched_bounds in Et. f_equal. f_equal. apply H; lia.
Qed.
Lemma reach_S n : (1 <= n)%nat -> reach (S n) = (2 * reach n + 4)%nat.
Proof.
  intros H. unfold reach. destruct n as [|n]; [lia|]. replace (S (S n) - 1)%nat with (S n) by lia. replace (S n - 1)%nat with n by lia. rewrite Nat.pow_succ_r'. assert (1 <= 2 ^ n)%nat by (clear; induction n; cbn; lia). lia.
Qed.
Lemma recurse_near p features : features <> [] -> forall depth i j x x' y b y' b',
  recurse p depth features x = Ok (y, b) -> recurse p depth features x' = Ok (y', b') -> (i < tn_rows x)%nat -> (j < tn_cols x)%nat ->
  alike_near (reach (length features)) i j x x' -> tn_pixel y i j = tn_pixel y' i j.
Proof.
  induction features as [|f rest IH]; intros Ne depth i j x x' y b y' b' E E' Hi Hj H; [contradiction|]. destruct rest as [|g rest].
  - cbn in E, E'. injection E as <- _. injection E' as <- _. assert (H' : alike_near (0 + 3 / 2) i j x x') by exact H. apply (conv_near 3 (un_down p depth)) in H'. destruct H' as (_ & _ & H'). apply H'; cbn [tn_rows tn_cols conv]; lia.
  - specialize (IH ltac:(discriminate)). set (c := conv 3 (un_down p depth) x) in *. set (c' := conv 3 (un_down p depth) x').
    change (recurse p depth (f :: g :: rest) x) with (r <- recurse p (S depth) (g :: rest) (max_pool c) ;; x0 <- concatenate (conv_transpose (un_transpose p depth) (fst r)) c ;; Ok (conv 3 (un_up p depth) x0, snd r)) in E.
    change (recurse p depth (f :: g :: rest) x') with (r <- recurse p (S depth) (g :: rest) (max_pool c') ;; x0 <- concatenate (conv_transpose (un_transpose p depth) (fst r)) c' ;; Ok (conv 3 (un_up p depth) x0, snd r)) in E'.
    destruct (recurse_cases p (g :: rest) (S depth) (max_pool c) ltac:(discriminate)) as [(yd & bd & Ed)|Ed]; rewrite Ed in E; [|discriminate].
    destruct (recurse_cases p (g :: rest) (S depth) (max_pool c') ltac:(discriminate)) as [(yd' & bd' & Ed')|Ed']; rewrite Ed' in E'; [|discriminate].
    cbn [bind fst snd] in E, E'. unfold concatenate in E, E'. destruct (_ && _) eqn:Q in E; [|discriminate]. destruct (_ && _) eqn:Q' in E'; [|discriminate]. cbn [bind] in E, E'.
    set (joined t z := mktensor (tn_rows (conv_transpose (un_transpose p depth) t)) (tn_cols (conv_transpose (un_transpose p depth) t)) (fun i j => tn_pixel (conv_transpose (un_transpose p depth) t) i j ++ tn_pixel z i j)).
    assert (Ey : y = conv 3 (un_up p depth) (joined yd c)) by (unfold joined; congruence). assert (Ey' : y' = conv 3 (un_up p depth) (joined yd' c')) by (unfold joined; congruence). clear E E'. subst y y'.
    apply andb_prop in Q, Q'. destruct Q as [Q1 Q2]. destruct Q' as [Q1' Q2']. apply Nat.eqb_eq in Q1, Q2, Q1', Q2'. cbn [tn_rows tn_cols conv_transpose] in Q1, Q2, Q1', Q2'.
    set (m := reach (length (g :: rest))) in *. change (length (f :: g :: rest)) with (S (length (g :: rest))) in H. rewrite reach_S in H by (cbn; lia). fold m in H.
    assert (Hc : alike_near (2 * m + 3) i j c c'). { apply conv_near. apply (alike_mono _ (2 * m + 4)); [cbn; lia|exact H]. }
    set (up := joined yd c). set (up' := joined yd' c').
    assert (Hup : alike_near (0 + 3 / 2) i j up up').
    { destruct Hc as (R & C & Hc). cbn [tn_rows tn_cols c c' conv] in R, C. split; [unfold up, up', joined; cbn; unfold c, c' in *; cbn in *; lia|]. split; [unfold up, up', joined; cbn; unfold c, c' in *; cbn in *; lia|]. change (0 + 3 / 2)%nat with 1%nat. intros u v Hu Hv Nu Nv. unfold up, up', joined in *. cbn [tn_rows tn_cols tn_pixel conv_transpose] in *. f_equal.
      - apply transpose_near; [unfold c, c' in *; cbn in *; lia|unfold c, c' in *; cbn in *; lia|]. intros s t Hs Ht Ns Nt. apply (IH (S depth) s t (max_pool c) (max_pool c') _ bd _ bd'); auto.
        + change (s < tn_rows c / 2)%nat. rewrite <- Q1, Nat.mul_comm, Nat.div_mul; lia.
        + change (t < tn_cols c / 2)%nat. rewrite <- Q2, Nat.mul_comm, Nat.div_mul; lia.
        + fold m. apply pool_near; [exact R|exact C|]. intros z w Hz Hw Nz Nw. apply Hc; auto; lia.
      - apply Hc; try lia; unfold c in *; cbn in *; lia. }
    apply (conv_near 3 (un_up p depth)) in Hup. destruct Hup as (_ & _ & Hup). apply Hup; unfold up, joined; cbn [tn_rows tn_cols conv conv_transpose]; try lia; unfold c in *; cbn in *; lia.
Qed.
(** C116: what a U-net with n levels says of a pixel depends on no pixels more than 5 * 2^(n-1) - 4 rows or
    columns away *)
Theorem unet_reach p features x x' y y' i j : features <> [] -> unet_call p features x = Ok y -> unet_call p features x' = Ok y' -> (i < tn_rows x)%nat -> (j < tn_cols x)%nat ->
  alike_near (reach (length features)) i j x x' -> tn_pixel y i j = tn_pixel y' i j.
Proof.
  intros Ne E E' Hi Hj H. unfold unet_call in E, E'.
  destruct (recurse_size p features Ne 0 x) as [A B]. destruct (recurse_size p features Ne 0 x') as [A' B'].
  destruct (recurse_cases p features 0 x Ne) as [(z & b & Ez)|Ez]; rewrite Ez in E; [|discriminate]. destruct (recurse_cases p features 0 x' Ne) as [(z' & b' & Ez')|Ez']; rewrite Ez' in E'; [|discriminate]. cbn in E, E'. injection E as <-. injection E' as <-.
  assert (Sz : forall q w c, recurse p 0 features q = Ok (w, c) -> tn_rows w = tn_rows q /\ tn_cols w = tn_cols q).
  { intros q w c Eq. destruct (recurse_size p features Ne 0 q) as [Aq Bq]. assert (P : (2 ^ (length features - 1) <> 0)%nat) by (apply Nat.pow_nonzero; lia).
    destruct (Nat.eq_dec (tn_rows q mod 2 ^ (length features - 1)) 0) as [E1|E1]; [destruct (Nat.eq_dec (tn_cols q mod 2 ^ (length features - 1)) 0) as [E2|E2]|].
    - apply Nat.mod_divide in E1; [|auto]. apply Nat.mod_divide in E2; [|auto]. destruct (Aq (conj E1 E2)) as (w' & c' & Ew & R & C & _). rewrite Eq in Ew. injection Ew as -> ->. auto.
    - rewrite Bq in Eq; [discriminate|]. intros [_ C]. apply Nat.mod_divide in C; auto.
    - rewrite Bq in Eq; [discriminate|]. intros [C _]. apply Nat.mod_divide in C; auto. }
  pose proof (Sz _ _ _ Ez) as [R1 C1]. pose proof (Sz _ _ _ Ez') as [R2 C2]. pose proof H as (R & C & _).
  assert (Hn : alike_near (0 + 1 / 2) i j z z'). { change (0 + 1 / 2)%nat with 0%nat. split; [lia|]. split; [lia|]. intros u v Hu Hv Nu Nv. assert (u = i) by lia. assert (v = j) by lia. subst. eapply recurse_near; eauto. }
  apply (conv_near 1 (un_output p)) in Hn. destruct Hn as (_ & _ & Hn). apply Hn; cbn [tn_rows tn_cols conv]; lia.
Qed.
(** C116: for the net with global outputs, pixels up to 6 further away matter for a pixel *)
Theorem global_local_reach p features x x' y g y' g' i j : features <> [] -> global_local_call p features x = Ok (y, g) -> global_local_call p features x' = Ok (y', g') -> (i < tn_rows x)%nat -> (j < tn_cols x)%nat ->
  alike_near (reach (length features) + 6) i j x x' -> tn_pixel y i j = tn_pixel y' i j.
Proof.
  intros Ne E E' Hi Hj H. unfold global_local_call in E, E'. destruct features as [|f rest] eqn:Ef; [contradiction|]. rewrite <- Ef in *. clear f rest Ef. set (c := conv 7 (un_input p) x) in *. set (c' := conv 7 (un_input p) x') in *.
  destruct (recurse_cases p features 0 c Ne) as [(z & b & Ez)|Ez]; rewrite Ez in E; [|discriminate]. destruct (recurse_cases p features 0 c' Ne) as [(z' & b' & Ez')|Ez']; rewrite Ez' in E'; [|discriminate]. cbn [bind fst snd] in E, E'. injection E as <- _. injection E' as <- _.
  assert (Sz : forall q w c, recurse p 0 features q = Ok (w, c) -> tn_rows w = tn_rows q /\ tn_cols w = tn_cols q).
  { intros q w d Eq. destruct (recurse_size p features Ne 0 q) as [Aq Bq]. assert (P : (2 ^ (length features - 1) <> 0)%nat) by (apply Nat.pow_nonzero; lia).
    destruct (Nat.eq_dec (tn_rows q mod 2 ^ (length features - 1)) 0) as [E1|E1]; [destruct (Nat.eq_dec (tn_cols q mod 2 ^ (length features - 1)) 0) as [E2|E2]|].
    - apply Nat.mod_divide in E1; [|auto]. apply Nat.mod_divide in E2; [|auto]. destruct (Aq (conj E1 E2)) as (w' & d' & Ew & R & C & _). rewrite Eq in Ew. injection Ew as -> ->. auto.
    - rewrite Bq in Eq; [discriminate|]. intros [_ C]. apply Nat.mod_divide in C; auto.
    - rewrite Bq in Eq; [discriminate|]. intros [C _]. apply Nat.mod_divide in C; auto. }
  pose proof (Sz _ _ _ Ez) as [R1 C1]. pose proof (Sz _ _ _ Ez') as [R2 C2]. pose proof H as (R & C & _). unfold c, c' in R1, C1, R2, C2. cbn [tn_rows tn_cols conv] in R1, C1, R2, C2.
  assert (Hc : alike_near (reach (length features) + 3) i j c c'). { apply conv_near. apply (alike_mono _ (reach (length features) + 6)); [change (7 / 2)%nat with 3%nat; lia|exact H]. }
  assert (Hn : alike_near (0 + 7 / 2) i j z z').
  { change (0 + 7 / 2)%nat with 3%nat. split; [lia|]. split; [lia|]. intros u v Hu Hv Nu Nv. eapply recurse_near; eauto; [unfold c; cbn; lia|unfold c; cbn; lia|]. apply (alike_shift _ 3 i j); auto. }
  apply (conv_near 7 (un_output p)) in Hn. destruct Hn as (_ & _ & Hn). apply Hn; cbn [tn_rows tn_cols conv]; lia.
Qed.
(** C116: by default, 16 divides the sizes, and 76 or 82 pixels matter *)
Theorem default_unet : (2 ^ (length default_features - 1) = 16 /\ reach (length default_features) = 76)%nat.
Proof. split; reflexivity. Qed.
Print Assumptions unet_sizes.
Print Assumptions global_local_sizes.
Print Assumptions no_features.
Print Assumptions unet_reach.
Print Assumptions global_local_reach.
Print Assumptions default_unet.

(** a net that adds up: images of 2 by 2 pixels fit two levels, of 3 by 2 do not; a pixel far away does not matter
    with one level *)
Definition adding : layer := mklayer 1 (fun _ _ v => firstn 1 (v ++ [0])) (fun v => v).
Definition adding_net : unet_params := mkunet_params (fun _ => adding) (fun _ => adding) (fun _ => adding) adding adding adding (fun v => v).
Example unet_nonvacuous :
  regular (un_output adding_net) /\ (exists y, unet_call adding_net [1; 1]%nat (mktensor 2 2 (fun _ _ => [1])) = Ok y /\ tn_rows y = 2%nat) /\
  unet_call adding_net [1; 1]%nat (mktensor 3 2 (fun _ _ => [1])) = Raise TypeError /\
  alike_near (reach 1) 0 0 (mktensor 4 4 (fun _ _ => [1])) (mktensor 4 4 (fun i _ => if (i =? 3)%nat then [2] else [1])).
Proof.
  assert (Rg : regular (un_output adding_net)). { split; [|reflexivity]. intros a b [|x v]; reflexivity. }
  split; [exact Rg|]. split; [|split].
  - destruct (unet_sizes adding_net [1; 1]%nat (mktensor 2 2 (fun _ _ => [1])) ltac:(discriminate) Rg) as [A _]. destruct A as (y & E & R & _); [split; exists 1%nat; reflexivity|]. exists y. split; [exact E|exact R].
  - destruct (unet_sizes adding_net [1; 1]%nat (mktensor 3 2 (fun _ _ => [1])) ltac:(discriminate) Rg) as [_ B]. apply B. intros [(k & Hk) _]. cbn in Hk. lia.
  - split; [reflexivity|]. split; [reflexivity|]. cbn. intros u v Hu Hv Nu Nv. destruct (Nat.eqb_spec u 3); [lia|reflexivity].
Qed.
