(** C116: the values the layers of the U-nets compute *)
From Coq Require Import Reals ZArith List Bool Arith Lia Lra.
From Verif Require Import Base.Prelude Model.LearningSteps Model.GraphNet Model.UNet Proofs.BaseFacts Proofs.GraphNetFacts Props.UNetProps Spec.UNet.
Import ListNotations.
Open Scope list_scope.
Open Scope res_scope.
Open Scope Z_scope.

Lemma on_plane_in x i j : (i < tn_rows x)%nat -> (j < tn_cols x)%nat -> on_plane x (Z.of_nat i) (Z.of_nat j) = Some (tn_pixel x i j).
Proof.
  intros Hi Hj. unfold on_plane. rewrite !Nat2Z.id. replace (_ && _) with true; [reflexivity|]. symmetry. rewrite !andb_true_iff, !Z.leb_le, !Z.ltb_lt. lia.
Qed.
Lemma on_plane_cases x i j : (exists u v, i = Z.of_nat u /\ j = Z.of_nat v /\ (u < tn_rows x)%nat /\ (v < tn_cols x)%nat /\ on_plane x i j = Some (tn_pixel x u v)) \/
  (on_plane x i j = None /\ ~ (0 <= i < Z.of_nat (tn_rows x) /\ 0 <= j < Z.of_nat (tn_cols x))).
Proof.
  unfold on_plane. destruct (_ && _) eqn:E.
  - left. rewrite !andb_true_iff, !Z.leb_le, !Z.ltb_lt in E. exists (Z.to_nat i), (Z.to_nat j). repeat split; lia.
  - right. split; [reflexivity|]. intros H. assert (X : true = false); [|discriminate]. rewrite <- E. symmetry. rewrite !andb_true_iff, !Z.leb_le, !Z.ltb_lt. lia.
Qed.
Lemma tap_plane pad x i j a b : (match tap_source pad (tn_rows x) i a, tap_source pad (tn_cols x) j b with Some u, Some v => Some (tn_pixel x u v) | _, _ => None end) =
  on_plane x (Z.of_nat i - Z.of_nat pad + Z.of_nat a) (Z.of_nat j - Z.of_nat pad + Z.of_nat b).
Proof.
  unfold tap_source. destruct (on_plane_cases x (Z.of_nat i - Z.of_nat pad + Z.of_nat a) (Z.of_nat j - Z.of_nat pad + Z.of_nat b)) as [(u & v & Eu & Ev & Hu & Hv & ->)|[-> N]].
  - replace ((pad <=? i + a)%nat && (i + a - pad <? tn_rows x)%nat) with true by (symmetry; apply andb_true_iff; rewrite Nat.leb_le, Nat.ltb_lt; lia). replace ((pad <=? j + b)%nat && (j + b - pad <? tn_cols x)%nat) with true by (symmetry; apply andb_true_iff; rewrite Nat.leb_le, Nat.ltb_lt; lia). f_equal. f_equal; lia.
  - destruct ((pad <=? i + a)%nat && (i + a - pad <? tn_rows x)%nat) eqn:E1; [|reflexivity]. destruct ((pad <=? j + b)%nat && (j + b - pad <? tn_cols x)%nat) eqn:E2; [|reflexivity]. apply andb_true_iff in E1. apply andb_true_iff in E2. rewrite Nat.leb_le, Nat.ltb_lt in E1, E2. exfalso. apply N. lia.
Qed.
(** C116: a convolution sees the pixels around each, and nothing outside of the image *)
Theorem conv_values size l x : same (on_plane (conv size l x)) (plane_conv size l (on_plane x)).
Proof.
  intros i j. unfold plane_conv. destruct (on_plane_cases x i j) as [(u & v & -> & -> & Hu & Hv & ->)|[-> N]].
  - rewrite on_plane_in by (cbn; auto). f_equal. cbn [tn_pixel conv]. f_equal. f_equal. unfold tapped. apply flat_map_ext. intros a. apply flat_map_ext. intros b.
    change 2%Z with (Z.of_nat 2). rewrite <- Nat2Z.inj_div, <- tap_plane. destruct (tap_source _ (tn_rows x) u a); [|reflexivity]. destruct (tap_source _ (tn_cols x) v b); reflexivity.
  - destruct (on_plane_cases (conv size l x) i j) as [(u & v & -> & -> & Hu & Hv & _)|[-> _]]; [|reflexivity]. cbn in Hu, Hv. exfalso. apply N. lia.
Qed.
Lemma stretched_plane x i j a b : (match stretched_source (tn_rows x) i a, stretched_source (tn_cols x) j b with Some u, Some v => Some (tn_pixel x u v) | _, _ => None end) =
  stretch (on_plane x) (Z.of_nat i - 2 + Z.of_nat a) (Z.of_nat j - 2 + Z.of_nat b).
Proof.
  assert (S : forall limit i a, stretched_source limit i a = if Z.even (Z.of_nat i - 2 + Z.of_nat a) && (0 <=? (Z.of_nat i - 2 + Z.of_nat a) / 2) && ((Z.of_nat i - 2 + Z.of_nat a) / 2 <? Z.of_nat limit) then Some (Z.to_nat ((Z.of_nat i - 2 + Z.of_nat a) / 2)) else None).
  { clear. intros limit i a. unfold stretched_source. destruct (Nat.even (i + a)) eqn:E.
    - apply Nat.even_spec in E. destruct E as (k & Hk). replace (Z.of_nat i - 2 + Z.of_nat a) with ((Z.of_nat k - 1) * 2) by lia. rewrite Z.div_mul by lia. rewrite Z.even_mul. cbn [Z.even orb]. rewrite orb_true_r. cbn [andb]. rewrite andb_true_r.
      destruct (Nat.leb_spec 2 (i + a)); cbn [andb].
      + replace (i + a - 2)%nat with ((k - 1) * 2)%nat by lia. rewrite Nat.div_mul by lia. replace (0 <=? Z.of_nat k - 1) with true by (symmetry; apply Z.leb_le; lia). cbn [andb].
        destruct (Nat.ltb_spec (k - 1) limit); destruct (Z.ltb_spec (Z.of_nat k - 1) (Z.of_nat limit)); try lia; [f_equal; lia|reflexivity].
      + replace (0 <=? Z.of_nat k - 1) with false by (symmetry; apply Z.leb_gt; lia). reflexivity.
    - replace (Z.even (Z.of_nat i - 2 + Z.of_nat a)) with false; [rewrite andb_false_r; reflexivity|]. symmetry. replace (Z.of_nat i - 2 + Z.of_nat a) with (Z.of_nat (i + a) - 2) by lia. rewrite Z.even_sub. cbn [Z.even].
      assert (X : Z.even (Z.of_nat (i + a)) = false); [|rewrite X; reflexivity]. destruct (Z.even (Z.of_nat (i + a))) eqn:Ez; [|reflexivity]. apply Z.even_spec in Ez. destruct Ez as (k & Hk). assert (Ev : Nat.even (i + a) = true); [|congruence]. apply Nat.even_spec. exists (Z.to_nat k). lia. }
  rewrite !S. unfold stretch. set (p := Z.of_nat i - 2 + Z.of_nat a). set (q := Z.of_nat j - 2 + Z.of_nat b). destruct (Z.even p), (Z.even q); cbn [andb]; try reflexivity; [|destruct (_ && _); reflexivity].
  unfold on_plane. rewrite <- !andb_assoc. destruct (0 <=? p / 2), (p / 2 <? Z.of_nat (tn_rows x)), (0 <=? q / 2), (q / 2 <? Z.of_nat (tn_cols x)); reflexivity.
Qed.
(** C116: a transposed convolution sees the pixels at even places of an image of twice the size *)
Theorem transpose_values l x : same (on_plane (conv_transpose l x)) (plane_transpose l (on_plane x)).
Proof.
  intros i j. unfold plane_transpose. destruct (on_plane_cases (conv_transpose l x) i j) as [(u & v & -> & -> & Hu & Hv & ->)|[-> N]]; cbn [tn_rows tn_cols conv_transpose] in *.
  - change 2 with (Z.of_nat 2) at 1 2. rewrite <- !Nat2Z.inj_div. rewrite on_plane_in by (apply Nat.div_lt_upper_bound; lia). f_equal. cbn [tn_pixel conv_transpose]. f_equal. f_equal. unfold tapped. apply flat_map_ext. intros a. apply flat_map_ext. intros b.
    rewrite <- stretched_plane. destruct (stretched_source (tn_rows x) u a); [|reflexivity]. destruct (stretched_source (tn_cols x) v b); reflexivity.
  - destruct (on_plane_cases x (i / 2) (j / 2)) as [(u & v & Eu & Ev & Hu & Hv & _)|[-> _]]; [|reflexivity]. exfalso. apply N.
    pose proof (Z.div_mod i 2 ltac:(lia)). pose proof (Z.div_mod j 2 ltac:(lia)). pose proof (Z.mod_pos_bound i 2 ltac:(lia)). pose proof (Z.mod_pos_bound j 2 ltac:(lia)). lia.
Qed.
Lemma vmax_nth a : forall b k, length a = length b -> (k < length a)%nat -> nth k (vmax a b) 0%R = Rmax (nth k a 0%R) (nth k b 0%R).
Proof. unfold vmax. induction a as [|x a IH]; intros [|y b] k H Hk; cbn in *; try lia. destruct k as [|k]; [reflexivity|]. apply IH; lia. Qed.
Lemma vmax_length a b : length a = length b -> length (vmax a b) = length a.
Proof. apply map2_length. Qed.
(** C116: pooling keeps of each two by two pixels the largest, channel by channel *)
Theorem pool_values x i j channels : (forall u v, length (tn_pixel x u v) = channels) ->
  tn_rows (max_pool x) = (tn_rows x / 2)%nat /\ tn_cols (max_pool x) = (tn_cols x / 2)%nat /\
  largest (tn_pixel x (2 * i) (2 * j)) (tn_pixel x (2 * i) (2 * j + 1)) (tn_pixel x (2 * i + 1) (2 * j)) (tn_pixel x (2 * i + 1) (2 * j + 1)) (tn_pixel (max_pool x) i j).
Proof.
  intros H. split; [reflexivity|]. split; [reflexivity|]. change (tn_pixel (max_pool x) i j) with (vmax (vmax (tn_pixel x (2 * i) (2 * j)) (tn_pixel x (2 * i) (2 * j + 1))) (vmax (tn_pixel x (2 * i + 1) (2 * j)) (tn_pixel x (2 * i + 1) (2 * j + 1)))).
  generalize (H (2 * i) (2 * j))%nat (H (2 * i) (2 * j + 1))%nat (H (2 * i + 1) (2 * j))%nat (H (2 * i + 1) (2 * j + 1))%nat. generalize (tn_pixel x (2 * i) (2 * j)) (tn_pixel x (2 * i) (2 * j + 1)) (tn_pixel x (2 * i + 1) (2 * j)) (tn_pixel x (2 * i + 1) (2 * j + 1)). intros a b c d Ha Hb Hc Hd.
  assert (L1 : length (vmax a b) = channels) by (rewrite vmax_length; congruence). assert (L2 : length (vmax c d) = channels) by (rewrite vmax_length; congruence). assert (L3 : length (vmax (vmax a b) (vmax c d)) = channels) by (rewrite vmax_length; congruence).
  split; [congruence|]. intros k Hk. rewrite L3 in Hk. rewrite (vmax_nth (vmax a b)), (vmax_nth a), (vmax_nth c) by (try congruence; lia).
  set (a' := nth k a 0%R). set (b' := nth k b 0%R). set (c' := nth k c 0%R). set (d' := nth k d 0%R). unfold Rmax. destruct (Rle_dec a' b'), (Rle_dec c' d'); destruct (Rle_dec _ _); (split; [auto|lra]).
Qed.
(** C116: images of a size are joined pixel by pixel, others are not *)
Theorem concatenate_values a b : (tn_rows a = tn_rows b /\ tn_cols a = tn_cols b -> exists c, concatenate a b = Ok c /\ same (on_plane c) (joined (on_plane a) (on_plane b))) /\
  (~ (tn_rows a = tn_rows b /\ tn_cols a = tn_cols b) -> concatenate a b = Raise TypeError).
Proof.
  unfold concatenate. split.
  - intros [Er Ec]. rewrite Er, Ec, !Nat.eqb_refl. cbn [andb]. eexists. split; [reflexivity|]. intros i j. unfold joined, on_plane. cbn [tn_rows tn_cols tn_pixel]. rewrite Er, Ec. destruct (_ && _); reflexivity.
  - intros N. destruct (Nat.eqb_spec (tn_rows a) (tn_rows b)); [|reflexivity]. destruct (Nat.eqb_spec (tn_cols a) (tn_cols b)); [|reflexivity]. tauto.
Qed.
(** C116: a level: convolve, pool, do the levels below, stretch, join (the stretched first) and convolve; the last
    only convolves *)
Theorem levels p depth f g rest x : Nat.divide (2 ^ (length (f :: g :: rest) - 1)) (tn_rows x) -> Nat.divide (2 ^ (length (f :: g :: rest) - 1)) (tn_cols x) ->
  exists below y bottom, recurse p (S depth) (g :: rest) (max_pool (conv 3 (un_down p depth) x)) = Ok (below, bottom) /\ recurse p depth (f :: g :: rest) x = Ok (y, bottom) /\
    same (on_plane y) (plane_conv 3 (un_up p depth) (joined (plane_transpose (un_transpose p depth) (on_plane below)) (plane_conv 3 (un_down p depth) (on_plane x)))).
Proof.
  intros Hr Hc. set (c := conv 3 (un_down p depth) x). replace (length (f :: g :: rest) - 1)%nat with (S (length (g :: rest) - 1)) in * by (cbn; lia).
  pose proof (proj1 (halve_divide _ _) Hr) as [Er Dr]. pose proof (proj1 (halve_divide _ _) Hc) as [Ec Dc].
  destruct (recurse_size p (g :: rest) ltac:(discriminate) (S depth) (max_pool c)) as [A _]. destruct A as (y & b & E & Yr & Yc & _ & _); [split; assumption|]. cbn [tn_rows tn_cols max_pool c conv] in Yr, Yc.
  change (recurse p depth (f :: g :: rest) x) with (r <- recurse p (S depth) (g :: rest) (max_pool c) ;; x0 <- concatenate (conv_transpose (un_transpose p depth) (fst r)) c ;; Ok (conv 3 (un_up p depth) x0, snd r)). rewrite E. cbn [bind fst snd].
  destruct (concatenate_values (conv_transpose (un_transpose p depth) y) c) as [C _]. destruct C as (j & Ej & Sj); [unfold c; cbn [tn_rows tn_cols conv_transpose conv]; lia|]. rewrite Ej. cbn [bind]. do 3 eexists. split; [reflexivity|]. split; [reflexivity|].
  assert (Ext : forall k l s t, same s t -> same (plane_conv k l s) (plane_conv k l t)). { intros k l s t Hst i0 j0. unfold plane_conv. rewrite Hst. destruct (t i0 j0); [|reflexivity]. f_equal. f_equal. f_equal. unfold tapped. apply flat_map_ext. intros a. apply flat_map_ext. intros b0. rewrite Hst. reflexivity. }
  intros i0 j0. rewrite conv_values. apply Ext. intros i1 j1. rewrite Sj. unfold joined. rewrite transpose_values. unfold c. rewrite conv_values. reflexivity.
Qed.
(** C116: the last level, and what is made of the whole *)
Theorem ends p depth f x :
  (exists y, recurse p depth [f] x = Ok (y, y) /\ same (on_plane y) (plane_conv 3 (un_down p depth) (on_plane x))) /\
  (forall features y b, recurse p 0 features x = Ok (y, b) -> exists z, unet_call p features x = Ok z /\ same (on_plane z) (plane_conv 1 (un_output p) (on_plane y))) /\
  (forall features y b, recurse p 0 features (conv 7 (un_input p) x) = Ok (y, b) -> exists z bottom, global_local_call p features x = Ok (z, un_dense p (vmean (ly_channels (un_global p)) bottom)) /\
    same (on_plane z) (plane_conv 7 (un_output p) (on_plane y)) /\
    (forall v, In v bottom <-> exists i j, plane_conv 1 (un_global p) (on_plane b) i j = Some v) /\ length bottom = (tn_rows b * tn_cols b)%nat).
Proof.
  split; [|split].
  - eexists. split; [reflexivity|]. apply conv_values.
  - intros features y b E. unfold unet_call. rewrite E. cbn [bind fst]. eexists. split; [reflexivity|]. apply conv_values.
  - intros features y b E. unfold global_local_call. destruct features as [|f' rest]; [discriminate|]. rewrite E. cbn [bind fst snd]. unfold pixel_mean. do 2 eexists. split; [reflexivity|]. split; [apply conv_values|]. split.
    + intros v. rewrite in_flat_map. split.
      * intros (u & Hu & Hv). apply in_seq in Hu. apply in_map_iff in Hv. destruct Hv as (w & Ew & Hw). apply in_seq in Hw. exists (Z.of_nat u), (Z.of_nat w). rewrite <- conv_values, on_plane_in by (cbn in *; lia). f_equal. exact Ew.
      * intros (i & j & Hv). rewrite <- conv_values in Hv. destruct (on_plane_cases (conv 1 (un_global p) b) i j) as [(u & w & _ & _ & Hu & Hw & Es)|[Es _]]; [|congruence]. rewrite Es in Hv. exists u. split; [apply in_seq; lia|]. apply in_map_iff. exists w. split; [congruence|apply in_seq; lia].
    + cbn [tn_rows tn_cols conv]. generalize (tn_rows b), (tn_cols b). intros n m. assert (G : forall l : list nat, length (flat_map (fun i => map (fun j => tn_pixel (conv 1 (un_global p) b) i j) (seq 0 m)) l) = (length l * m)%nat). { induction l as [|q l IHl]; [reflexivity|]. cbn [flat_map]. rewrite app_length, map_length, seq_length, IHl. reflexivity. } rewrite G, seq_length. reflexivity.
Qed.
Print Assumptions conv_values.
Print Assumptions transpose_values.
Print Assumptions pool_values.
Print Assumptions concatenate_values.
Print Assumptions levels.
Print Assumptions ends.

(** a net that adds up, with two levels, for an image of 4 by 2 pixels: the
    pooled image, and a result *)
Example levels_nonvacuous :
  let x := mktensor 4 2 (fun i j => [INR (2 * i + j)]%R) in
  Nat.divide (2 ^ (length [1; 1]%nat - 1)) (tn_rows x) /\ Nat.divide (2 ^ (length [1; 1]%nat - 1)) (tn_cols x) /\
  (forall u v, length (tn_pixel x u v) = 1%nat) /\ tn_rows (max_pool x) = 2%nat /\ tn_cols (max_pool x) = 1%nat /\
  tn_pixel (max_pool x) 1 0 = [7]%R /\
  exists y b, recurse adding_net 0 [1; 1]%nat x = Ok (y, b) /\ tn_rows y = 4%nat.
Proof.
  intros x. assert (D1 : Nat.divide (2 ^ (length [1; 1]%nat - 1)) (tn_rows x)) by (exists 2%nat; reflexivity).
  assert (D2 : Nat.divide (2 ^ (length [1; 1]%nat - 1)) (tn_cols x)) by (exists 1%nat; reflexivity).
  repeat (split; [first [assumption | reflexivity | intros; reflexivity]|]). split.
  - unfold x, max_pool, vmax. cbn [tn_pixel map2]. f_equal. rewrite !Rmax_right; cbn; try lra; rewrite ?Rmax_right; lra.
  - destruct (levels adding_net 0 1%nat 1%nat [] x D1 D2) as (below & y & b & E & E' & _). exists y, b. split; auto.
    cbn [recurse bind] in E'. unfold concatenate in E'. cbn in E'. injection E' as <- _. reflexivity.
Qed.
