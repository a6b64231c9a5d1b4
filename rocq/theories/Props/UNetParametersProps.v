(** Property C124: the parameters of the U-nets. *)
From Coq Require Import String List Arith Lia DecimalNat DecimalString Decimal.
From Verif Require Import Base.Prelude Model.RateTraining Model.UNet Model.UNetParameters Spec.UNetParameters.
Import ListNotations.
Local Open Scope nat_scope.
Local Open Scope string_scope.
Local Open Scope list_scope.

Lemma decimal_inj i j : decimal i = decimal j -> i = j.
Proof.
  unfold decimal. intros H. apply (f_equal NilZero.uint_of_string) in H.
  assert (N : forall k, Nat.to_uint k <> Nil).
  { intros k K. pose proof (Unsigned.of_to k) as O. rewrite K in O. cbn in O. subst k. discriminate. }
  rewrite !NilZero.usu in H by apply N. injection H as H. apply Unsigned.to_uint_inj. exact H.
Qed.
Lemma append_inj a b c : (a ++ b = a ++ c)%string -> b = c.
Proof. induction a as [|x a IH]; cbn; [auto|]. intros H. injection H as H. auto. Qed.
Lemma numbered_inj a i j : (a ++ decimal i = a ++ decimal j)%string -> i = j.
Proof. intros H. apply append_inj in H. apply decimal_inj. exact H. Qed.

(** the parameters of the levels from some depth on *)
Definition from_depth (features : list nat) (inputs first depth : nat) (m q : string) (s : list nat) : Prop :=
  exists d f, nth_error features d = Some f /\
    ((exists a, nth_error (inputs :: features) d = Some a /\ m = ("ConvDown_" ++ decimal (depth + d))%string /\ convolution 3 a f q s) \/
     (m = ("LayerNorm_" ++ decimal (first + d))%string /\ normalization f q s) \/
     (exists b, nth_error features (S d) = Some b /\ m = ("ConvTranspose_" ++ decimal (depth + d))%string /\ convolution 3 b f q s) \/
     (S d < length features /\ m = ("ConvUp_" ++ decimal (depth + d))%string /\ convolution 3 (2 * f) f q s) \/
     (S d < length features /\ m = ("LayerNorm_" ++ decimal (first + (2 * length features - 2 - d)))%string /\ normalization f q s)).

Lemma in_conv n k a b m q s : In (m, q, s) (conv_parameters n k a b) <-> m = n /\ convolution k a b q s.
Proof.
  unfold conv_parameters, convolution. cbn [In]. split.
  - intros [E|[E|[]]]; injection E as <- <- <-; auto.
  - intros (-> & [(-> & ->)|(-> & ->)]); auto.
Qed.
Lemma in_norm k f m q s : In (m, q, s) (norm_parameters k f) <-> m = ("LayerNorm_" ++ decimal k)%string /\ normalization f q s.
Proof.
  unfold norm_parameters, normalization. cbn [In]. split.
  - intros [E|[E|[]]]; injection E as <- <- <-; auto.
  - intros (-> & [->| ->] & ->); auto.
Qed.

Lemma recurse_made features : features <> [] -> forall depth inputs first,
  let r := recurse_parameters depth features inputs first in
  (forall m q s, In (m, q, s) (md_parameters r) <-> from_depth features inputs first depth m q s) /\
  nth_error features 0 = Some (md_channels r) /\ nth_error features (length features - 1) = Some (md_bottom r) /\
  md_norms r = first + (2 * length features - 1).
Proof.
  induction features as [|f rest IH]; intros Ne depth inputs first; [contradiction|]. destruct rest as [|f1 rest].
  - cbv zeta. cbn [recurse_parameters md_parameters md_channels md_bottom md_norms]. split; [|repeat split; cbn; lia].
    intros m q s. rewrite in_app_iff, in_conv, in_norm. unfold from_depth. split.
    + intros [(-> & C)|(-> & C)]; exists 0, f; (split; [reflexivity|]).
      * left. exists inputs. rewrite Nat.add_0_r. auto.
      * right; left. rewrite Nat.add_0_r. auto.
    + intros ([|d] & g & E & H); cbn in E; [injection E as <-|destruct d; discriminate].
      rewrite !Nat.add_0_r in H. cbn [nth_error length] in H.
      destruct H as [(a & Ea & -> & C)|[(-> & C)|[(b & Eb & _)|[(L & _)|(L & _)]]]]; try discriminate; try lia; auto.
      injection Ea as <-. auto.
  - specialize (IH ltac:(discriminate) (S depth) f (S first)).
    change (recurse_parameters depth (f :: f1 :: rest) inputs first) with
      (let inner := recurse_parameters (S depth) (f1 :: rest) f (S first) in
       mkmade ((conv_parameters ("ConvDown_" ++ decimal depth)%string 3 inputs f ++ norm_parameters first f) ++ md_parameters inner ++
          conv_parameters ("ConvTranspose_" ++ decimal depth)%string 3 (md_channels inner) f ++
          conv_parameters ("ConvUp_" ++ decimal depth)%string 3 (f + f) f ++ norm_parameters (md_norms inner) f)
         f (md_bottom inner) (S (md_norms inner))).
    cbv zeta in *. set (inner := recurse_parameters (S depth) (f1 :: rest) f (S first)) in *. clearbody inner.
    destruct IH as (I1 & I2 & I3 & I4). cbn [md_parameters md_channels md_bottom md_norms].
    set (l := f1 :: rest) in *. assert (Ll : 1 <= length l) by (cbn; lia).
    split; [|split; [reflexivity|split]].
    + intros m q s. rewrite !in_app_iff, !in_conv, !in_norm, I1, I4. unfold from_depth. split.
      * intros [[(-> & C)|(-> & C)]|[(d & g & E & H)|[(-> & C)|[(-> & C)|(-> & C)]]]].
        -- exists 0, f. split; [reflexivity|]. left. exists inputs. rewrite Nat.add_0_r. auto.
        -- exists 0, f. split; [reflexivity|]. right; left. rewrite Nat.add_0_r. auto.
        -- exists (S d), g. split; [exact E|]. cbn [length] in *.
           destruct H as [(a & Ea & -> & C)|[(-> & C)|[(b & Eb & -> & C)|[(L & -> & C)|(L & -> & C)]]]].
           ++ left. exists a. split; [exact Ea|]. split; [do 2 f_equal; lia|exact C].
           ++ right; left. split; [do 2 f_equal; lia|exact C].
           ++ right; right; left. exists b. split; [exact Eb|]. split; [do 2 f_equal; lia|exact C].
           ++ right; right; right; left. split; [lia|]. split; [do 2 f_equal; lia|exact C].
           ++ right; right; right; right. split; [lia|]. split; [do 2 f_equal; lia|exact C].
        -- exists 0, f. split; [reflexivity|]. right; right; left. exists (md_channels inner). rewrite Nat.add_0_r. auto.
        -- exists 0, f. split; [reflexivity|]. right; right; right; left. rewrite Nat.add_0_r. split; [cbn [length]; lia|].
           split; [reflexivity|]. replace (2 * f) with (f + f) by lia. exact C.
        -- exists 0, f. split; [reflexivity|]. right; right; right; right. split; [cbn [length]; lia|].
           split; [do 2 f_equal; cbn [length]; lia|exact C].
      * intros ([|d] & g & E & H).
        -- cbn in E. injection E as <-. rewrite !Nat.add_0_r in H.
           destruct H as [(a & Ea & -> & C)|[(-> & C)|[(b & Eb & -> & C)|[(L & -> & C)|(L & -> & C)]]]].
           ++ cbn in Ea. injection Ea as <-. auto.
           ++ auto.
           ++ change (nth_error l 0 = Some b) in Eb. rewrite I2 in Eb. injection Eb as <-. auto.
           ++ replace (2 * f) with (f + f) in C by lia. auto 6.
           ++ do 4 right. split; [do 2 f_equal; cbn [length]; lia|exact C].
        -- right; left. exists d, g. split; [exact E|]. cbn [length] in H.
           destruct H as [(a & Ea & -> & C)|[(-> & C)|[(b & Eb & -> & C)|[(L & -> & C)|(L & -> & C)]]]].
           ++ left. exists a. split; [exact Ea|]. split; [do 2 f_equal; lia|exact C].
           ++ right; left. split; [do 2 f_equal; lia|exact C].
           ++ right; right; left. exists b. split; [exact Eb|]. split; [do 2 f_equal; lia|exact C].
           ++ right; right; right; left. split; [lia|]. split; [do 2 f_equal; lia|exact C].
           ++ right; right; right; right. split; [lia|]. split; [do 2 f_equal; lia|exact C].
    + cbn [length]. replace (S (length l) - 1) with (S (length l - 1)) by lia. exact I3.
    + cbn [length]. lia.
Qed.

Lemma from_depth_0 features inputs first m q s :
  from_depth features inputs first 0 m q s <-> level_parameter features inputs first m q s.
Proof.
  split.
  - intros (d & f & E & [(a & Ea & -> & C)|[(-> & C)|[(b & Eb & -> & C)|[(L & -> & C)|(L & -> & C)]]]]).
    + eapply goes_down; eauto.
    + eapply normed_down; eauto.
    + eapply stretched; eauto.
    + eapply goes_up; eauto.
    + eapply normed_up; eauto.
  - intros [d a f q' s' Ea E C|d f q' s' E C|d f b q' s' E Eb C|d f q' s' E L C|d f q' s' E L C]; exists d, f; (split; [exact E|]).
    + left. eauto.
    + right; left. auto.
    + right; right; left. eauto.
    + right; right; right; left. auto.
    + right; right; right; right. auto.
Qed.

(** The parameters of the detector's net. *)
Theorem unet_layout : forall features inputs classes m name shape, features <> [] ->
  In (m, name, shape) (unet_parameters features inputs classes) <->
  level_parameter features inputs 0 m name shape \/
  exists top, nth_error features 0 = Some top /\ m = "ConvOutput" /\ convolution 1 top classes name shape.
Proof.
  intros features inputs classes m name shape Ne. unfold unet_parameters.
  destruct (recurse_made features Ne 0 inputs 0) as (I1 & I2 & _ & _). cbv zeta.
  rewrite in_app_iff, in_conv, I1, from_depth_0, I2. split; intros [H|H]; auto.
  - right. exists (md_channels (recurse_parameters 0 features inputs 0)). tauto.
  - destruct H as (top & E & H). injection E as <-. auto.
Qed.
Print Assumptions unet_layout.

(** The parameters of the aligner's net: another convolution and normalization
    before, two outputs, of which one is from the bottom. *)
Theorem global_local_layout : forall features inputs local global m name shape, features <> [] ->
  exists top bottom, nth_error features 0 = Some top /\ nth_error features (length features - 1) = Some bottom /\
  (In (m, name, shape) (global_local_parameters features inputs local global) <->
   level_parameter features top 1 m name shape \/
   m = "ConvInput" /\ convolution 7 inputs top name shape \/
   m = "LayerNorm_0" /\ normalization top name shape \/
   m = "ConvOutput" /\ convolution 7 top local name shape \/
   m = "global_output" /\ convolution 1 bottom 256 name shape \/
   m = ("LayerNorm_" ++ decimal (2 * length features))%string /\ normalization 256 name shape \/
   m = "Dense_0" /\ (name = "kernel" /\ shape = [256; global] \/ name = "bias" /\ shape = [global])).
Proof.
  intros features inputs local global m name shape Ne. unfold global_local_parameters. cbv zeta.
  assert (Eh : nth_error features 0 = Some (hd 0 features)) by (destruct features; [contradiction|reflexivity]).
  set (top := hd 0 features) in *. clearbody top.
  destruct (recurse_made features Ne 0 top 1) as (I1 & I2 & I3 & I4). cbv zeta in *.
  rewrite Eh in I2. injection I2 as I2. rewrite <- I2.
  exists top, (md_bottom (recurse_parameters 0 features top 1)). split; [exact Eh|]. split; [exact I3|].
  assert (Ln : 1 <= length features) by (destruct features; [contradiction|cbn; lia]).
  replace (2 * length features) with (md_norms (recurse_parameters 0 features top 1)) by lia.
  rewrite !in_app_iff, !in_conv, !in_norm, I1, from_depth_0. change (decimal 0) with "0". change ("LayerNorm_" ++ "0")%string with "LayerNorm_0".
  assert (D : In (m, name, shape) (dense_parameters "Dense_0" 256 global) <->
    m = "Dense_0" /\ (name = "kernel" /\ shape = [256; global] \/ name = "bias" /\ shape = [global])).
  { unfold dense_parameters. cbn [In]. split.
    - intros [E|[E|[]]]; injection E as <- <- <-; auto.
    - intros (-> & [(-> & ->)|(-> & ->)]); auto. }
  rewrite D. tauto.
Qed.
Print Assumptions global_local_layout.

(** names *)
Lemma from_depth_names features inputs first depth m q s : from_depth features inputs first depth m q s ->
  (exists k, depth <= k /\ (m = ("ConvDown_" ++ decimal k)%string \/ m = ("ConvTranspose_" ++ decimal k)%string \/ m = ("ConvUp_" ++ decimal k)%string)) \/
  (exists k, first <= k < first + (2 * length features - 1) /\ m = ("LayerNorm_" ++ decimal k)%string).
Proof.
  intros (d & f & E & H). assert (L : d < length features) by (apply nth_error_Some; congruence).
  destruct H as [(a & Ea & -> & C)|[(-> & C)|[(b & Eb & -> & C)|[(L' & -> & C)|(L' & -> & C)]]]].
  - left. exists (depth + d). split; [lia|auto].
  - right. exists (first + d). split; [lia|auto].
  - left. exists (depth + d). split; [lia|auto].
  - left. exists (depth + d). split; [lia|auto].
  - right. eexists. split; [|reflexivity]. lia.
Qed.
Lemma distinct_app {A} (a b : list A) : NoDup a -> NoDup b -> (forall x, In x a -> In x b -> False) -> NoDup (a ++ b).
Proof.
  intros Ha Hb D. induction Ha as [|x a Nx Ha IH]; [exact Hb|]. cbn. constructor.
  - rewrite in_app_iff. intros [H|H]; [contradiction|]. apply (D x); [left; reflexivity|exact H].
  - apply IH. intros y Hy. apply D. right. exact Hy.
Qed.
Lemma conv_distinct n k a b : NoDup (map fst (conv_parameters n k a b)).
Proof. cbn. repeat constructor; cbn; [intros [E|[]]; discriminate|tauto]. Qed.
Lemma norm_distinct k f : NoDup (map fst (norm_parameters k f)).
Proof. cbn [norm_parameters map fst]. repeat constructor; cbn [In]; [intros [E|[]]; discriminate|tauto]. Qed.
Lemma conv_names n k a b m q : In (m, q) (map fst (conv_parameters n k a b)) -> m = n.
Proof. cbn. intros [E|[E|[]]]; congruence. Qed.
Lemma norm_names k f m q : In (m, q) (map fst (norm_parameters k f)) -> m = ("LayerNorm_" ++ decimal k)%string.
Proof. cbn [norm_parameters map fst In]. intros [E|[E|[]]]; congruence. Qed.
Lemma made_names depth features inputs first m q : features <> [] ->
  In (m, q) (map fst (md_parameters (recurse_parameters depth features inputs first))) ->
  (exists k, depth <= k /\ (m = ("ConvDown_" ++ decimal k)%string \/ m = ("ConvTranspose_" ++ decimal k)%string \/ m = ("ConvUp_" ++ decimal k)%string)) \/
  (exists k, first <= k < first + (2 * length features - 1) /\ m = ("LayerNorm_" ++ decimal k)%string).
Proof.
  intros Ne H. apply in_map_iff in H as ([[m' q'] s] & E & H). cbn in E. injection E as -> ->.
  apply (recurse_made features Ne depth inputs first) in H. eapply from_depth_names; eauto.
Qed.

Ltac names :=
  repeat match goal with
  | H : In (?m, ?q) (map fst (conv_parameters _ _ _ _)) |- _ => apply conv_names in H
  | H : In (?m, ?q) (map fst (norm_parameters _ _)) |- _ => apply norm_names in H
  | H : In _ (map fst (md_parameters (recurse_parameters _ _ _ _))) |- _ => apply made_names in H; [|discriminate || assumption]
  | H : In _ (map fst (_ ++ _)) |- _ => rewrite map_app in H
  | H : In _ (_ ++ _) |- _ => apply in_app_or in H
  | H : _ \/ _ |- _ => destruct H as [H|H]
  | H : exists _, _ |- _ => destruct H
  | H : _ /\ _ |- _ => destruct H
  end; subst;
  repeat match goal with
  | H : (_ ++ _)%string = (_ ++ _)%string |- _ => first [discriminate | apply numbered_inj in H]
  end; try discriminate; try lia.

Lemma recurse_distinct features : features <> [] -> forall depth inputs first,
  NoDup (map fst (md_parameters (recurse_parameters depth features inputs first))).
Proof.
  induction features as [|f rest IH]; intros Ne depth inputs first; [contradiction|]. destruct rest as [|f1 rest].
  - cbn [recurse_parameters md_parameters]. rewrite map_app. apply distinct_app; [apply conv_distinct|apply norm_distinct|].
    intros [m q] A B. names.
  - specialize (IH ltac:(discriminate) (S depth) f (S first)).
    pose proof (recurse_made (f1 :: rest) ltac:(discriminate) (S depth) f (S first)) as (_ & _ & _ & En). cbv zeta in En.
    change (recurse_parameters depth (f :: f1 :: rest) inputs first) with
      (let inner := recurse_parameters (S depth) (f1 :: rest) f (S first) in
       mkmade ((conv_parameters ("ConvDown_" ++ decimal depth)%string 3 inputs f ++ norm_parameters first f) ++ md_parameters inner ++
          conv_parameters ("ConvTranspose_" ++ decimal depth)%string 3 (md_channels inner) f ++
          conv_parameters ("ConvUp_" ++ decimal depth)%string 3 (f + f) f ++ norm_parameters (md_norms inner) f)
         f (md_bottom inner) (S (md_norms inner))).
    cbv zeta. cbn [md_parameters]. rewrite En. rewrite !map_app.
    repeat (apply distinct_app; [| |]); try apply conv_distinct; try apply norm_distinct; try exact IH; intros [m q] A B; names.
Qed.

(** No two parameters have the same name, so a checkpoint holds each of them. *)
Theorem parameters_distinct : forall features inputs a b, features <> [] ->
  NoDup (map fst (unet_parameters features inputs a)) /\ NoDup (map fst (global_local_parameters features inputs a b)).
Proof.
  intros features inputs a b Ne. split.
  - unfold unet_parameters. cbv zeta. rewrite map_app. apply distinct_app; [apply recurse_distinct; exact Ne|apply conv_distinct|].
    intros [m q] A B. names.
  - unfold global_local_parameters. cbv zeta.
    pose proof (recurse_made features Ne 0 (hd 0 features) 1) as (_ & _ & _ & En). cbv zeta in En. rewrite En.
    rewrite !map_app. assert (Dd : NoDup (map fst (dense_parameters "Dense_0" 256 b))) by (cbn; repeat constructor; cbn; [intros [E|[]]; discriminate|tauto]).
    assert (Dn : forall m q, In (m, q) (map fst (dense_parameters "Dense_0" 256 b)) -> m = "Dense_0") by (cbn; intros m q [E|[E|[]]]; congruence).
    repeat (apply distinct_app; [| |]); try apply conv_distinct; try apply norm_distinct; try exact Dd; try (apply recurse_distinct; exact Ne);
      intros [m q] A B; rewrite ?in_app_iff in B; names;
      try match goal with H : In _ (map fst (dense_parameters _ _ _)) |- _ => apply Dn in H; names end.
Qed.
Print Assumptions parameters_distinct.

(** the widths of the levels are those of the first convolutions of each level *)
Lemma down_is features inputs first d a f :
  level_parameter features inputs first ("ConvDown_" ++ decimal d)%string "kernel" [3; 3; a; f] <->
  nth_error (inputs :: features) d = Some a /\ nth_error features d = Some f.
Proof.
  split.
  - intros H. apply from_depth_0 in H as (d' & g & E & [(a' & Ea & N & C)|[(N & C)|[(b & Eb & N & C)|[(L & N & C)|(L & N & C)]]]]); try discriminate.
    apply numbered_inj in N. cbn [Nat.add] in N. subst d'. destruct C as [(_ & C)|(C & _)]; [|discriminate]. injection C as -> ->. auto.
  - intros (A & B). eapply goes_down; eauto. left. auto.
Qed.
Lemma level_output features inputs first q s m : m = "ConvOutput" \/ m = "ConvInput" \/ m = "Dense_0" \/ m = "global_output" ->
  ~ level_parameter features inputs first m q s.
Proof.
  intros M H. apply from_depth_0, from_depth_names in H. names.
Qed.
Lemma same_list {A} (l l' : list A) : (forall d x, nth_error l d = Some x <-> nth_error l' d = Some x) -> l = l'.
Proof.
  revert l'. induction l as [|x l IH]; intros [|y l'] H.
  - reflexivity.
  - specialize (proj2 (H 0 y) eq_refl). discriminate.
  - specialize (proj1 (H 0 x) eq_refl). discriminate.
  - pose proof (proj1 (H 0 x) eq_refl) as E. injection E as ->. f_equal. apply IH. intros d. apply (H (S d)).
Qed.

Lemma widths_same (features : list nat) inputs (features' : list nat) inputs' : features <> [] ->
  (forall d a f, nth_error (inputs :: features) d = Some a /\ nth_error features d = Some f <->
     nth_error (inputs' :: features') d = Some a /\ nth_error features' d = Some f) ->
  features = features' /\ inputs = inputs'.
Proof.
  intros N K.
  assert (F : features = features').
  { apply same_list. intros d x. split; intros E.
    - destruct (nth_error (inputs :: features) d) as [a|] eqn:Ea.
      + apply (K d a x). auto.
      + exfalso. apply nth_error_None in Ea. assert (d < length features) by (apply nth_error_Some; congruence). cbn in Ea. lia.
    - destruct (nth_error (inputs' :: features') d) as [a|] eqn:Ea.
      + apply (K d a x). auto.
      + exfalso. apply nth_error_None in Ea. assert (d < length features') by (apply nth_error_Some; congruence). cbn in Ea. lia. }
  split; [exact F|]. subst features'. destruct features as [|f rest]; [contradiction|].
  destruct (proj1 (K 0 inputs f)) as (X & _); [auto|]. injection X as ->. reflexivity.
Qed.

(** A checkpoint fits no other net: nets with the same parameters have the same
    levels, inputs and outputs. *)
Theorem unet_determined : forall features inputs classes features' inputs' classes', features <> [] -> features' <> [] ->
  (forall p, In p (unet_parameters features inputs classes) <-> In p (unet_parameters features' inputs' classes')) ->
  features = features' /\ inputs = inputs' /\ classes = classes'.
Proof.
  intros features inputs classes features' inputs' classes' N N' H.
  assert (K : forall d a f, nth_error (inputs :: features) d = Some a /\ nth_error features d = Some f <->
     nth_error (inputs' :: features') d = Some a /\ nth_error features' d = Some f).
  { intros d a f. specialize (H (("ConvDown_" ++ decimal d)%string, "kernel", [3; 3; a; f])).
    rewrite !unet_layout, !down_is in H by assumption.
    destruct H as (A & B). split; intros X; [destruct (A (or_introl X)) as [Y|(top & _ & Y & _)]|destruct (B (or_introl X)) as [Y|(top & _ & Y & _)]];
      first [exact Y|discriminate]. }
  destruct (widths_same _ _ _ _ N K) as (F & I). split; [exact F|]. split; [exact I|]. subst features' inputs'.
  assert (X : In ("ConvOutput", "bias", [classes]) (unet_parameters features inputs classes')).
  { apply H, unet_layout; [exact N|]. right. destruct features as [|f rest]; [contradiction|]. exists f.
    split; [reflexivity|]. split; [reflexivity|]. right. auto. }
  apply unet_layout in X; [|exact N]. destruct X as [X|(top & _ & _ & C)].
  - exfalso. revert X. apply level_output. auto.
  - destruct C as [(C & _)|(_ & C)]; [discriminate|]. injection C as ->. reflexivity.
Qed.
Print Assumptions unet_determined.

Lemma top_of l t : nth_error l 0 = Some t -> hd 0 l = t.
Proof. destruct l; cbn; congruence. Qed.

Theorem global_local_determined : forall features inputs local global features' inputs' local' global', features <> [] -> features' <> [] ->
  (forall p, In p (global_local_parameters features inputs local global) <-> In p (global_local_parameters features' inputs' local' global')) ->
  features = features' /\ inputs = inputs' /\ local = local' /\ global = global'.
Proof.
  intros features inputs local global features' inputs' local' global' N N' H.
  assert (K : forall d a f, nth_error (hd 0 features :: features) d = Some a /\ nth_error features d = Some f <->
     nth_error (hd 0 features' :: features') d = Some a /\ nth_error features' d = Some f).
  { intros d a f. specialize (H (("ConvDown_" ++ decimal d)%string, "kernel", [3; 3; a; f])).
    destruct (global_local_layout features inputs local global ("ConvDown_" ++ decimal d)%string "kernel" [3; 3; a; f] N) as (t & b & Et & _ & A).
    destruct (global_local_layout features' inputs' local' global' ("ConvDown_" ++ decimal d)%string "kernel" [3; 3; a; f] N') as (t' & b' & Et' & _ & A').
    rewrite A, A', !down_is in H. rewrite (top_of _ _ Et), (top_of _ _ Et').
    assert (Dj : forall P Q Q1 Q2 Q3 Q4 Q5 : Prop, (P \/ ("ConvDown_" ++ decimal d)%string = "ConvInput" /\ Q \/
        ("ConvDown_" ++ decimal d)%string = "LayerNorm_0" /\ Q1 \/ ("ConvDown_" ++ decimal d)%string = "ConvOutput" /\ Q2 \/
        ("ConvDown_" ++ decimal d)%string = "global_output" /\ Q3 \/
        ("ConvDown_" ++ decimal d)%string = ("LayerNorm_" ++ decimal (2 * length features))%string /\ Q4 \/
        ("ConvDown_" ++ decimal d)%string = "Dense_0" /\ Q5) -> P)
      by (intros P Q Q1 Q2 Q3 Q4 Q5 X; destruct X as [X|[X|[X|[X|[X|[X|X]]]]]]; [exact X|..]; destruct X as [X _]; discriminate X).
    assert (Dj' : forall P Q Q1 Q2 Q3 Q4 Q5 : Prop, (P \/ ("ConvDown_" ++ decimal d)%string = "ConvInput" /\ Q \/
        ("ConvDown_" ++ decimal d)%string = "LayerNorm_0" /\ Q1 \/ ("ConvDown_" ++ decimal d)%string = "ConvOutput" /\ Q2 \/
        ("ConvDown_" ++ decimal d)%string = "global_output" /\ Q3 \/
        ("ConvDown_" ++ decimal d)%string = ("LayerNorm_" ++ decimal (2 * length features'))%string /\ Q4 \/
        ("ConvDown_" ++ decimal d)%string = "Dense_0" /\ Q5) -> P)
      by (intros P Q Q1 Q2 Q3 Q4 Q5 X; destruct X as [X|[X|[X|[X|[X|[X|X]]]]]]; [exact X|..]; destruct X as [X _]; discriminate X).
    split; intros X; [eapply Dj', H; left; exact X|eapply Dj, H; left; exact X]. }
  destruct (widths_same _ _ _ _ N K) as (F & _). subst features'. split; [reflexivity|].
  destruct features as [|f rest]; [contradiction|].
  assert (G : forall m name shape, In (m, name, shape) (global_local_parameters (f :: rest) inputs local global) ->
    m = "ConvInput" \/ m = "ConvOutput" \/ m = "Dense_0" ->
    m = "ConvInput" /\ convolution 7 inputs' f name shape \/ m = "ConvOutput" /\ convolution 7 f local' name shape \/
    m = "Dense_0" /\ (name = "kernel" /\ shape = [256; global'] \/ name = "bias" /\ shape = [global'])).
  { intros m name shape X M. apply H in X.
    destruct (global_local_layout (f :: rest) inputs' local' global' m name shape N) as (t & b & Et & _ & A). injection Et as <-. apply A in X.
    destruct X as [X|[X|[X|[X|[X|[X|X]]]]]]; auto; try (exfalso; destruct X as (-> & _); destruct M as [M|[M|M]]; discriminate).
    exfalso. revert X. apply level_output. tauto. }
  assert (B : forall m name shape, m = "ConvInput" /\ convolution 7 inputs f name shape \/ m = "ConvOutput" /\ convolution 7 f local name shape \/
    m = "Dense_0" /\ (name = "kernel" /\ shape = [256; global] \/ name = "bias" /\ shape = [global]) ->
    In (m, name, shape) (global_local_parameters (f :: rest) inputs local global)).
  { intros m name shape X. destruct (global_local_layout (f :: rest) inputs local global m name shape N) as (t & b & Et & _ & A). injection Et as <-.
    apply A. tauto. }
  split; [|split].
  - destruct (G "ConvInput" "kernel" [7; 7; inputs; f]) as [(_ & C)|[(C & _)|(C & _)]]; try discriminate; auto.
    + apply B. left. split; [reflexivity|]. left. auto.
    + destruct C as [(_ & C)|(C & _)]; [|discriminate]. injection C as ->. reflexivity.
  - destruct (G "ConvOutput" "bias" [local]) as [(C & _)|[(_ & C)|(C & _)]]; try discriminate; auto.
    + apply B. right; left. split; [reflexivity|]. right. auto.
    + destruct C as [(C & _)|(_ & C)]; [discriminate|]. injection C as ->. reflexivity.
  - destruct (G "Dense_0" "bias" [global]) as [(C & _)|[(C & _)|(_ & C)]]; try discriminate; auto.
    + apply B. right; right. split; [reflexivity|]. right. auto.
    + destruct C as [(C & _)|(_ & C)]; [discriminate|]. injection C as ->. reflexivity.
Qed.
Print Assumptions global_local_determined.

(** The shipped nets have five levels, each twice as wide as the one above. *)
Theorem default_levels : length default_features = 5 /\ forall d, d < 5 -> nth_error default_features d = Some (64 * 2 ^ d).
Proof.
  split; [reflexivity|]. intros d Hd. do 5 (destruct d as [|d]; [reflexivity|]). lia.
Qed.
Print Assumptions default_levels.

(** A saved aligner fits the configuration it was trained with and no other. *)
Theorem aligner_determined : forall final n final' n', 1 <= n -> 1 <= n' ->
  (forall p, In p (aligner_parameters final n) <-> In p (aligner_parameters final' n')) -> final = final' /\ n = n'.
Proof.
  intros final n final' n' L L' H. apply global_local_determined in H; [|discriminate|discriminate].
  destruct H as (_ & -> & A & B). split; [|reflexivity]. destruct final, final'; auto; lia.
Qed.
Print Assumptions aligner_determined.

(** what it takes and returns: one channel for each image; three values for each
    pixel and two for the drift, of the last image or of all *)
Theorem shipped_parameters : forall (final : bool) n, 1 <= n ->
  In ("ConvDown_0", "kernel", [3; 3; 1; 64]) detector_parameters /\ In ("ConvOutput", "kernel", [1; 1; 64; 3]) detector_parameters /\
  In ("ConvInput", "kernel", [7; 7; n; 64]) (aligner_parameters final n) /\
  In ("ConvOutput", "kernel", [7; 7; 64; if final then 3 else 3 * n]) (aligner_parameters final n) /\
  In ("Dense_0", "kernel", [256; if final then 2 else 2 * (n - 1)]) (aligner_parameters final n).
Proof.
  intros final n L.
  assert (U : forall m name shape, level_parameter default_features 1 0 m name shape \/
     (exists top, nth_error default_features 0 = Some top /\ m = "ConvOutput" /\ convolution 1 top 3 name shape) -> In (m, name, shape) detector_parameters).
  { intros m name shape X. apply unet_layout; [discriminate|exact X]. }
  split; [apply U; left; apply (down_is default_features 1 0 0); split; reflexivity|].
  split; [apply U; right; exists 64; repeat split; left; split; reflexivity|].
  assert (A : forall m name shape, m = "ConvInput" /\ convolution 7 n 64 name shape \/
     m = "ConvOutput" /\ convolution 7 64 (if final then 3 else 3 * n) name shape \/
     m = "Dense_0" /\ name = "kernel" /\ shape = [256; if final then 2 else 2 * (n - 1)] -> In (m, name, shape) (aligner_parameters final n)).
  { intros m name shape X. unfold aligner_parameters. cbv zeta.
    destruct (global_local_layout default_features n (if final then 3 else 3 * n) (if final then 2 else 2 * (n - 1)) m name shape ltac:(discriminate))
      as (t & b & Et & _ & Hi). injection Et as <-. apply Hi. tauto. }
  split; [apply A; left; split; [reflexivity|left; split; reflexivity]|].
  split; [apply A; right; left; split; [reflexivity|left; split; reflexivity]|].
  apply A; right; right. auto.
Qed.
Print Assumptions shipped_parameters.

Example parameters_nonvacuous :
  map fst (unet_parameters [4; 8] 1 3) =
    [("ConvDown_0", "kernel"); ("ConvDown_0", "bias"); ("LayerNorm_0", "scale"); ("LayerNorm_0", "bias");
     ("ConvDown_1", "kernel"); ("ConvDown_1", "bias"); ("LayerNorm_1", "scale"); ("LayerNorm_1", "bias");
     ("ConvTranspose_0", "kernel"); ("ConvTranspose_0", "bias"); ("ConvUp_0", "kernel"); ("ConvUp_0", "bias");
     ("LayerNorm_2", "scale"); ("LayerNorm_2", "bias"); ("ConvOutput", "kernel"); ("ConvOutput", "bias")] /\
  level_parameter [4; 8] 1 0 "ConvTranspose_0" "kernel" [3; 3; 8; 4] /\ level_parameter [4; 8] 1 0 "LayerNorm_2" "scale" [4] /\
  ~ (forall p, In p (aligner_parameters true 5) <-> In p (aligner_parameters false 5)).
Proof.
  split; [reflexivity|]. split; [|split].
  - apply (stretched [4; 8] 1 0 0 4 8); try reflexivity. left. auto.
  - apply (normed_up [4; 8] 1 0 0 4); cbn; try lia; try reflexivity. split; auto.
  - intros H. apply aligner_determined in H; [|lia|lia]. destruct H. discriminate.
Qed.
