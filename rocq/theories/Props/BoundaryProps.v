(** Edges of C95, C98, C109, C110, C112, C113 and C115: characters, missing keys, blank images, shapes that do not fit. *)
From Coq Require Import Reals ZArith List Bool Arith Lia Lra Ascii String.
From Verif Require Import Base.Prelude Base.Rounding Model.MicroscopeUtils Model.Io Model.Upload Model.Alignment Model.ImageAligner
  Model.AtomDetector Model.LearningSteps Model.Schedule Model.GraphNet Proofs.BaseFacts Proofs.MaterialFacts Spec.Upload
  Props.CropProps Props.ImageAlignerProps.
Import ListNotations.
Open Scope R_scope.

(** ** C110: the letters and digits of names *)
Definition letters (s : string) (c : ascii) : Prop := In c (list_ascii_of_string s).
Theorem character_classes : forall c,
  (is_upper c = true <-> letters "ABCDEFGHIJKLMNOPQRSTUVWXYZ" c) /\
  (is_lower c = true <-> letters "abcdefghijklmnopqrstuvwxyz" c) /\
  (is_digit c = true <-> letters "0123456789" c).
Proof.
  assert (In_dec : forall s c, letters s c <-> existsb (Ascii.eqb c) (list_ascii_of_string s) = true).
  { intros s c. unfold letters. rewrite existsb_exists. split; [intro H; exists c; split; [exact H|apply Ascii.eqb_refl]|intros (d & H & E); apply Ascii.eqb_eq in E; subst; exact H]. }
  intro c. rewrite !In_dec. destruct c as [[|] [|] [|] [|] [|] [|] [|] [|]]; vm_compute; repeat split; congruence.
Qed.
Print Assumptions character_classes.
(** lower() changes capitals only, to the letter at the same place of the alphabet *)
Theorem lower_case : forall c,
  (forall i, nth_error (list_ascii_of_string "ABCDEFGHIJKLMNOPQRSTUVWXYZ") i = Some c -> nth_error (list_ascii_of_string "abcdefghijklmnopqrstuvwxyz") i = Some (lower c)) /\
  (~ letters "ABCDEFGHIJKLMNOPQRSTUVWXYZ" c -> lower c = c).
Proof.
  intro c. split.
  - intros i H. do 26 (destruct i as [|i]; [injection H as <-; reflexivity|]). destruct i; discriminate.
  - intro N. unfold lower. destruct (is_upper c) eqn:E; [|reflexivity]. apply character_classes in E. contradiction.
Qed.
Print Assumptions lower_case.

(** no name at all: the dataset cannot be uploaded, and nothing is *)
Theorem nameless_dataset : forall B (serialize : ptrajectory -> B) parts d b, join (map underscore parts) = [] ->
  upload_dataset serialize parts d b = (Raise ValueError, b).
Proof. intros B serialize parts d b H. unfold upload_dataset, blob_name. rewrite H. reflexivity. Qed.
Print Assumptions nameless_dataset.
Example nameless_nonvacuous : join (map underscore [[]]) = [].
Proof. reflexivity. Qed.

(** ** C109: missing keys *)
Theorem frame_missing_key : forall factor e,
  (en_coordinates e = None \/ en_fov e = None -> load_frame factor e = Raise KeyError) /\
  (en_coordinates e <> None -> en_fov e <> None -> exists f, load_frame factor e = Ok f).
Proof.
  intros factor e. unfold load_frame, get_key. split.
  - intros [->| ->]; [reflexivity|]. destruct (en_coordinates e); reflexivity.
  - destruct (en_coordinates e); [|congruence]. destruct (en_fov e); [|congruence]. intros _ _. cbn [bind].
    destruct (measurements factor e) as [[[d b] w] s]. eauto.
Qed.
Print Assumptions frame_missing_key.
(** the frame of a number is the first one with it; none: KeyError *)
Theorem frame_lookup : forall t frames,
  (forall f, lookup_frame t frames = Ok f <-> exists before after, frames = before ++ (t, f) :: after /\ ~ In t (map fst before)) /\
  (~ In t (map fst frames) <-> lookup_frame t frames = Raise KeyError).
Proof.
  intros t frames. induction frames as [|[k g] frames [IH1 IH2]]; cbn [lookup_frame].
  - split; [|split; [reflexivity|intros _ []]]. intro f. split; [discriminate|]. intros (before & after & E & _). destruct before; discriminate.
  - destruct (Nat.eqb_spec k t) as [->|N].
    + split; [|split; [intro H; exfalso; apply H; left; reflexivity|discriminate]]. intro f. split.
      * intro E. injection E as ->. exists [], frames. split; [reflexivity|intros []].
      * intros ([|x before] & after & E & H); [injection E as -> _; reflexivity|]. exfalso. apply H. injection E as <- _. left. reflexivity.
    + split.
      * intro f. rewrite IH1. split.
        -- intros (before & after & -> & H). exists ((k, g) :: before), after. split; [reflexivity|]. intros [E|E]; [exact (N E)|exact (H E)].
        -- intros ([|x before] & after & E & H); [injection E as E _ _; contradiction|]. injection E as <- E. exists before, after. split; [exact E|].
           intro H'. apply H. right. exact H'.
      * rewrite <- IH2. cbn. tauto.
Qed.
Print Assumptions frame_lookup.
Theorem conversion_missing_frame : forall s frames, ~ In 0%nat (map fst frames) -> convert_dataset_to_proto s frames = Raise KeyError.
Proof. intros s frames H. unfold convert_dataset_to_proto. apply frame_lookup in H. rewrite H. reflexivity. Qed.
Print Assumptions conversion_missing_frame.

(** ** C95: the blank images, and images of another size *)
Section Aligner.
Context {PS : Type}.
Variable post_reset : PS -> PS.
Variable hybrid : bool.
(** the past of an aligner that was reset shows nothing, on a field of view of 20 angstroms *)
Theorem blank_history : forall n h w (a : aligner (PS := PS)) a', ia_reset post_reset hybrid n h w a = (Ok tt, a') ->
  length (ia_history a') = (n - 1)%nat /\
  forall f v, In (f, v) (ia_history a') -> rs_height f = h /\ rs_width f = w /\ (forall i j, rs_pixel f i j = Some 0) /\
    lower_left v = mkpt 0 0 /\ upper_right v = mkpt 20 20.
Proof.
  intros n h w a a' H. destruct n as [|n]; [discriminate|]. unfold ia_reset in H. apply (f_equal snd) in H. cbn [snd] in H. subst a'. cbn [ia_history].
  assert (G : forall (l : list (frame * fov)) x m (xs : list nat), (forall y, In y l -> y = x) -> (length l <= m)%nat ->
     (forall y, In y (fold_left (fun l _ => push m x l) xs l) -> y = x) /\ length (fold_left (fun l _ => push m x l) xs l) = Nat.min m (length l + length xs)).
  { intros l x m xs. revert l. induction xs as [|z xs IH]; intros l Hl Hm; cbn [fold_left]; [split; [exact Hl|cbn; lia]|].
    assert (L : length (push (A := frame * fov) m x l) = Nat.min m (length l + 1)) by (unfold push; rewrite skipn_length, app_length; cbn; lia).
    destruct (IH (push m x l)) as [I1 I2]; [|lia|].
    - intros y Hy. unfold push in Hy. assert (In y (l ++ [x])).
      { rewrite <- (firstn_skipn (length (l ++ [x]) - m) (l ++ [x])). apply in_or_app. right. exact Hy. }
      apply in_app_or in H. destruct H as [H|[H|[]]]; auto.
    - split; [exact I1|]. rewrite I2, L. cbn [length]. lia. }
  destruct (G [] (blank h w, dummy_fov) n (seq 0 (S n))) as [G1 G2]; [intros y []|cbn; lia|].
  split; [rewrite G2, seq_length; cbn; lia|]. intros f v Hf. apply G1 in Hf. injection Hf as -> ->. repeat split.
Qed.
(** the script resets to images of the size that the network gets *)
Theorem script_history : forall n (a : aligner (PS := PS)) f v, (0 < n)%nat -> In (f, v) (ia_history (script_reset post_reset hybrid n a)) ->
  rs_height f = 512%nat /\ rs_width f = 512%nat.
Proof.
  intros n a f v N H. unfold script_reset in H. destruct (ia_reset post_reset hybrid n default_size default_size a) as [r a'] eqn:E.
  destruct n as [|n]; [lia|]. assert (r = Ok tt) as -> by (unfold ia_reset in E; injection E as <- _; reflexivity).
  apply blank_history in E. destruct E as [_ E]. destruct (E f v H) as (-> & -> & _). split; reflexivity.
Qed.
End Aligner.
Print Assumptions blank_history.
Print Assumptions script_history.
Example script_history_nonvacuous : exists f v, In (f, v) (ia_history (script_reset (fun u : unit => u) false 2 (new_aligner tt))).
Proof. do 2 eexists. left. reflexivity. Qed.

(** images of another size cannot be stacked: the exception, whatever the network *)
Theorem wrong_size_error : forall history image view h, In h history ->
  (rs_height (fst h) <> rs_height image \/ rs_width (fst h) <> rs_width image) ->
  framestack history image view = Raise ValueError.
Proof.
  intros history image view h Hi D. unfold framestack.
  assert (G : map_res (fun h => pad_and_crop_images_by_fov (Some 0) (fst h) (snd h) view) history = Raise ValueError \/
     exists padded, map_res (fun h => pad_and_crop_images_by_fov (Some 0) (fst h) (snd h) view) history = Ok padded /\
       Forall2 (fun (h : frame * fov) f => rs_height f = rs_height (fst h) /\ rs_width f = rs_width (fst h)) history padded).
  { clear. induction history as [|x history IH]; [right; exists []; split; [reflexivity|constructor]|]. cbn [map_res].
    destruct (crop_exn (Some 0) (fst x) (snd x) view) as [(out & E)|E]; rewrite E; [|left; reflexivity]. cbn [bind].
    destruct IH as [->|(padded & -> & F)]; [left; reflexivity|]. right. exists (out :: padded). split; [reflexivity|]. constructor; [|exact F]. eapply crop_shape, E. }
  destruct G as [->|(padded & -> & F)]; [reflexivity|]. cbn [bind].
  unfold frame in *. match goal with |- context [stackable ?l] => destruct (stackable l) eqn:S; [|reflexivity] end. exfalso. apply stackable_iff in S. destruct S as (hh & ww & S).
  apply Forall_app in S. destruct S as [So Si]. inversion Si as [|? ? [I1 I2] _]; subst.
  assert (Q : rs_height (fst h) = rs_height image /\ rs_width (fst h) = rs_width image); [|tauto].
  clear D. revert So Hi. induction F as [|x f history padded [E1 E2] F IH]; intros So Hi; [destruct Hi|].
  inversion So as [|? ? [S1 S2] So']; subst. destruct Hi as [->|Hi]; [|auto]. split; congruence.
Qed.
Print Assumptions wrong_size_error.
Example wrong_size_nonvacuous : framestack [(blank 2 2, dummy_fov)] (blank 3 2) dummy_fov = Raise ValueError.
Proof. eapply wrong_size_error; [left; reflexivity|left; discriminate]. Qed.

(** ** C98: unsigned bytes keep the remainder *)
Theorem byte_wraps : forall x, (0 <= to_uint8 x < 256)%Z /\ (exists k, trunc x = to_uint8 x + 256 * k)%Z.
Proof.
  intro x. unfold to_uint8. split; [apply Z.mod_pos_bound; lia|]. exists (trunc x / 256)%Z. pose proof (Z_div_mod_eq_full (trunc x) 256). lia.
Qed.
Print Assumptions byte_wraps.

(** ** C112: the names of what a detection batch reports *)
Theorem detection_report : forall Params Image (network : Params -> Image -> list (list R)) p b,
  (forall k, In k (map fst (detection_outputs network p b)) <-> k = "accuracy"%string \/ k = "loss"%string) /\
  In ("accuracy"%string, detection_accuracy network p b) (detection_outputs network p b) /\
  In ("loss"%string, detection_loss network p b) (detection_outputs network p b).
Proof.
  intros Params Image network p b. cbn. split; [|auto]. intro k. split; [intros [<-|[<-|[]]]; auto|intros [->| ->]; auto].
Qed.
Print Assumptions detection_report.

(** ** C113: a step goes against the direction, by the rate of its number *)
Theorem adamw_step : forall Grads Moments (direction : Grads -> Moments -> list R -> list R * Moments) rate g count m p p' o,
  adamw direction rate g (count, m) p = (p', o) -> length (fst (direction g m p)) = length p ->
  length p' = length p /\ fst o = S count /\ snd o = snd (direction g m p) /\
  forall i, (i < length p)%nat -> nth i p 0 - nth i p' 0 = rate count * nth i (fst (direction g m p)) 0.
Proof.
  intros Grads Moments direction rate g count m p p' o H L. unfold adamw in H. cbn [fst snd] in H. destruct (direction g m p) as [d m'].
  injection H as <- <-. cbn [fst snd] in *. split; [|split; [reflexivity|split; [reflexivity|]]].
  - revert d L. induction p as [|x p IH]; intros [|y d] L; try discriminate; cbn; [reflexivity|]. f_equal. apply IH. cbn in L. lia.
  - revert d L. induction p as [|x p IH]; intros [|y d] L i Hi; try discriminate; cbn in *; [lia|]. destruct i as [|i]; [lra|]. apply IH; lia.
Qed.
Print Assumptions adamw_step.

(** ** C115: features of another number of points *)
Theorem features_mismatch : forall Pos (displacement : Pos -> Pos -> vec) origin cfg p positions idx features,
  length features <> length positions -> graph_apply displacement origin cfg p positions idx features = Raise TypeError.
Proof. intros Pos displacement origin cfg p positions idx features H. unfold graph_apply. apply Nat.eqb_neq in H. rewrite H. reflexivity. Qed.
Print Assumptions features_mismatch.
(** the other ways to fail *)
Theorem graph_errors : forall Pos (displacement : Pos -> Pos -> vec) origin cfg p positions idx features,
  length features = length positions -> nc_format cfg <> Dense ->
  (~ Nat.divide 8 (nc_width cfg) -> graph_apply displacement origin cfg p positions idx features = Raise ValueError) /\
  (Nat.divide 8 (nc_width cfg) -> nc_format cfg = OrderedSparse \/ nc_steps cfg = 0%nat \/ ~ Nat.divide (nc_steps cfg) (length positions) \/
     (forall v, length (global_decoder p v) <> (nc_steps cfg * nc_dims cfg)%nat) ->
   graph_apply displacement origin cfg p positions idx features = Raise TypeError).
Proof.
  intros Pos displacement origin cfg p positions idx features L N. unfold graph_apply. rewrite L, Nat.eqb_refl. cbn [negb].
  assert (E : exists g, create_graph displacement origin cfg positions features idx = Some g /\ g_points g = length positions).
  { unfold create_graph. destruct (if Rltb 0 (nc_threshold cfg) then _ else _) as [es real]. destruct (nc_format cfg); [congruence| |]; eexists; split; reflexivity. }
  destruct E as (g & -> & P). cbn [network_call]. split.
  - intro W. destruct (Nat.eqb_spec (nc_width cfg mod 8) 0) as [E8|E8]; [|reflexivity]. exfalso. apply W. apply Nat.mod_divide in E8; [exact E8|lia].
  - intros W H. replace (nc_width cfg mod 8 =? 0)%nat with true by (symmetry; apply Nat.eqb_eq, Nat.mod_divide; [lia|exact W]). cbn [negb].
    destruct (nc_format cfg) eqn:F; [congruence| |reflexivity]. rewrite P.
    destruct (Nat.eqb_spec (nc_steps cfg) 0) as [E0|E0]; [reflexivity|]. cbn [orb].
    destruct (Nat.eqb_spec (length positions mod nc_steps cfg) 0) as [Ed|Ed]; [|reflexivity]. cbn [negb].
    destruct (Nat.eqb_spec (length (global_decoder p (fst (g_globals (encoder_call (nc_width cfg) (nc_recurrences cfg) p g))))) (nc_steps cfg * nc_dims cfg)) as [Eg|Eg]; [|reflexivity].
    exfalso. destruct H as [H|[H|[H|H]]]; [discriminate|congruence| |exact (H _ Eg)]. apply H. apply Nat.mod_divide; assumption.
Qed.
Print Assumptions graph_errors.
