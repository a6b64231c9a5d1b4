(** C95: what the image aligner remembers, and what it shows its network *)
From Coq Require Import Reals ZArith List Bool Lia Lra Arith.
From Verif Require Import Base.Prelude Base.Rounding Base.Random Model.MicroscopeUtils Model.Alignment Model.Pipeline Model.ImageAligner
  Spec.Grids Spec.Merging Spec.Views Spec.ImageMemory
  Proofs.BaseFacts Proofs.FovFacts Proofs.AlignFacts Proofs.FilterFacts Proofs.ClumpFacts Proofs.MaterialFacts Proofs.ExampleSampler
  Props.FeatureProps Props.FilterProps Props.TrajectoryAlignProps Props.CropProps.
Import ListNotations.
Open Scope R_scope.

(** * the last entries of a list *)
Lemma lastn_all {A} n (l : list A) : (length l <= n)%nat -> lastn n l = l.
Proof. intros H. unfold lastn. replace (length l - n)%nat with 0%nat by lia. reflexivity. Qed.
Lemma lastn_length {A} n (l : list A) : length (lastn n l) = Nat.min n (length l).
Proof. unfold lastn. rewrite skipn_length. lia. Qed.
Lemma skip_skip {A} (l : list A) : forall x y, skipn x (skipn y l) = skipn (y + x) l.
Proof. induction l as [|a l IH]; intros x y; [rewrite !skipn_nil; auto|]. destruct y; cbn; auto. Qed.
Lemma lastn_app {A} n (a b : list A) : lastn n (lastn n a ++ b) = lastn n (a ++ b).
Proof.
  unfold lastn. rewrite app_length, skipn_length, app_length, !skipn_app, skipn_length, skip_skip. f_equal; f_equal; lia.
Qed.
Lemma push_lastn {A} n (x : A) l : push n x l = lastn n (l ++ [x]).
Proof. reflexivity. Qed.
Lemma push_repeat {A} n (x : A) : forall k l, fold_left (fun l _ => push n x l) (seq 0 k) l = lastn n (l ++ repeat x k) \/ k = 0%nat.
Proof.
  intros k. assert (G : forall s l, fold_left (fun l _ => push n x l) (seq s k) l = lastn n (l ++ repeat x k) \/ k = 0%nat).
  { induction k as [|k IH]; intros s l; [auto|]. left. cbn [seq fold_left repeat].
    destruct (IH (S s) (push n x l)) as [E| ->].
    - rewrite E, push_lastn, lastn_app, <- app_assoc. reflexivity.
    - cbn. rewrite push_lastn. reflexivity. }
  apply G.
Qed.
Lemma lastn_repeat {A} n (x : A) k : (n <= k)%nat -> lastn n (repeat x k) = repeat x n.
Proof.
  intros H. unfold lastn. rewrite repeat_length. replace k with ((k - n) + n)%nat at 2 by lia.
  rewrite repeat_app, skipn_app, repeat_length, Nat.sub_diag. rewrite skipn_all2 by (rewrite repeat_length; lia). reflexivity.
Qed.

Lemma py_nth_iff {A} (l : list A) i x : py_nth l i = Ok x <-> at_index l i x.
Proof.
  unfold py_nth, at_index. cbv zeta. split.
  - destruct (i <? 0)%Z eqn:E1.
    + destruct (i + Z.of_nat (length l) <? 0)%Z eqn:E2; [discriminate|]. apply Z.ltb_lt in E1. apply Z.ltb_ge in E2.
      destruct (nth_error l _) eqn:N; [|discriminate]. intros Q. injection Q as ->. eexists. split; [exact N|]. right. lia.
    + rewrite E1. apply Z.ltb_ge in E1. destruct (nth_error l _) eqn:N; [|discriminate]. intros Q. injection Q as ->.
      eexists. split; [exact N|]. left. lia.
  - intros (k & N & Hk). assert (L : (k < length l)%nat) by (apply nth_error_Some; congruence).
    destruct Hk as [->| ->].
    + replace (Z.of_nat k <? 0)%Z with false by (symmetry; apply Z.ltb_ge; lia).
      replace (Z.of_nat k <? 0)%Z with false by (symmetry; apply Z.ltb_ge; lia). rewrite Nat2Z.id, N. reflexivity.
    + replace (Z.of_nat k - Z.of_nat (length l) <? 0)%Z with true by (symmetry; apply Z.ltb_lt; lia).
      replace (Z.of_nat k - Z.of_nat (length l) + Z.of_nat (length l))%Z with (Z.of_nat k) by lia.
      replace (Z.of_nat k <? 0)%Z with false by (symmetry; apply Z.ltb_ge; lia). rewrite Nat2Z.id, N. reflexivity.
Qed.
Lemma py_nth_fails {A} (l : list A) i : (forall x, py_nth l i <> Ok x) -> py_nth l i = Raise IndexError.
Proof.
  unfold py_nth. cbv zeta. destruct (i <? 0)%Z; destruct (_ <? 0)%Z; auto; destruct (nth_error _ _); auto; intros H; exfalso; eapply H; reflexivity.
Qed.

Section Aligner.
Context {PS : Type}.
Variable post_reset : PS -> PS.
Variable post_call : grid -> PS -> res (grid * pt) * PS.
Variable equalize : raster R -> res (raster R).
Variable network : list frame -> res (list (raster (R * R * R) * pt)).
Variable contours : raster bool -> nat -> list moments.
Variable adaptive hybrid : bool.
Variable default_history_length : nat.
Notation aligner := (@aligner PS).
Notation reset := (ia_reset post_reset hybrid).
Notation prep := (preprocess equalize adaptive).
Notation call := (ia_call post_reset post_call equalize network contours adaptive hybrid default_history_length).

(** * C95: after a reset, blank images; an aligner needs none after that *)
Theorem reset_blank n h w (a : aligner) : (0 < n)%nat ->
  exists a', reset n h w a = (Ok tt, a') /\ ia_history a' = repeat (blank h w, dummy_fov) (n - 1) /\
    ia_maxlen a' = (n - 1)%nat /\ ia_needs_reset a' = false /\ (hybrid = false -> ia_post a' = ia_post a) /\
    (hybrid = true -> ia_post a' = post_reset (ia_post a)).
Proof.
  intros H. destruct n as [|n]; [lia|]. eexists. split; [reflexivity|]. unfold ia_history, ia_maxlen, ia_needs_reset, ia_post.
  replace (S n - 1)%nat with n by lia. split; [|repeat split].
  - destruct (push_repeat n (blank h w, dummy_fov) (S n) []) as [E|E]; [|discriminate]. rewrite E, app_nil_l. apply lastn_repeat. lia.
  - intros ->. reflexivity.
  - intros ->. reflexivity.
Qed.
Theorem reset_zero h w (a : aligner) : reset 0 h w a = (Raise ValueError, a).
Proof. reflexivity. Qed.

Lemma stackable_iff fs : stackable fs = true <-> exists h w, Forall (fun f => rs_height f = h /\ rs_width f = w) fs.
Proof.
  destruct fs as [|f fs]; cbn; [split; [exists 0%nat, 0%nat; constructor|auto]|]. rewrite forallb_forall. split.
  - intros H. exists (rs_height f), (rs_width f). constructor; auto. apply Forall_forall. intros g Hg. apply H in Hg.
    apply andb_true_iff in Hg. rewrite !Nat.eqb_eq in Hg. auto.
  - intros (h & w & F). inversion F as [|? ? [H W] F']; subst. intros g Hg. rewrite Forall_forall in F'. apply F' in Hg.
    apply andb_true_iff. rewrite !Nat.eqb_eq. auto.
Qed.
Lemma prep_size image f : prep image = Ok f -> net_size f.
Proof.
  unfold preprocess. destruct (if adaptive then _ else _) as [i|e|]; cbn [bind]; try discriminate.
  unfold resize_nearest. destruct (_ || _ || _ || _); cbn [bind]; [discriminate|]. intros E. injection E as <-.
  split; reflexivity.
Qed.
Lemma framestack_Ok history now view frames : framestack history now view = Ok frames <->
  shown history now view frames /\ stackable frames = true.
Proof.
  unfold framestack, shown. split.
  - destruct (map_res (fun h => pad_and_crop_images_by_fov (Some 0) (fst h) (snd h) view) history) as [older|e|] eqn:Em; cbn [bind]; try discriminate.
    destruct (stackable (older ++ [now])) eqn:Es; [|discriminate]. intros E. injection E as <-. split; auto.
    exists older. split; auto. apply map_res_Ok in Em. exact Em.
  - intros [(older & -> & F) S]. apply map_res_Ok in F. unfold frame in *. rewrite F. unfold bind. rewrite S. reflexivity.
Qed.

(** one call, for an aligner that was reset *)
Lemma call_steps image view given time (a : aligner) : ia_needs_reset a = false ->
  call image view given time a =
  match prep image with
  | Raise e => (Raise e, a)
  | OutOfFuel => (OutOfFuel, a)
  | Ok now =>
      match bind (framestack (ia_history a) now view) (fun frames => bind (network frames) (fun outputs => py_nth outputs time)) with
      | Raise e => (Raise e, a)
      | OutOfFuel => (OutOfFuel, a)
      | Ok (logits, drift) =>
          let probs := raster_map softmax3 logits in
          let g := match given with Some g => g | None => process_detection_predictions contours probs default_buffer_width end in
          let '(g', drift', ps) := if hybrid then postprocess post_reset post_call view g drift (ia_post a) else (g, drift, ia_post a) in
          (Ok (g', drift', probs), mkaligner (push (ia_maxlen a) (now, view) (ia_history a)) (ia_maxlen a) false ps)
      end
  end.
Proof.
  intros H. unfold ia_call. destruct (prep image) as [now|e|]; auto. rewrite H. cbn [bind]. rewrite ?H.
  destruct (bind _ _) as [[logits drift]|e|]; auto. destruct hybrid; reflexivity.
Qed.

(** * C95: an answered call: the network saw the remembered images and the new one, and what
    is returned is what it said for the wanted frame *)
Theorem call_answer image view given time (a a' : aligner) g drift probs : ia_needs_reset a = false ->
  call image view given time a = (Ok (g, drift, probs), a') ->
  exists now frames outputs logits net_drift,
    prep image = Ok now /\ net_size now /\ shown (ia_history a) now view frames /\ length frames = S (length (ia_history a)) /\
    network frames = Ok outputs /\ at_index outputs time (logits, net_drift) /\ probs = raster_map softmax3 logits /\
    ia_history a' = lastn (ia_maxlen a) (ia_history a ++ [(now, view)]) /\
    ia_maxlen a' = ia_maxlen a /\ ia_needs_reset a' = false /\
    (hybrid = false -> drift = net_drift /\ ia_post a' = ia_post a /\
      g = match given with Some g => g | None => process_detection_predictions contours probs default_buffer_width end).
Proof.
  intros H. rewrite call_steps by auto. destruct (prep image) as [now|e|] eqn:Ep; try discriminate.
  destruct (framestack (ia_history a) now view) as [frames|e|] eqn:Ef; cbn [bind]; try discriminate.
  destruct (network frames) as [outputs|e|] eqn:En; cbn [bind]; try discriminate.
  destruct (py_nth outputs time) as [[logits d]|e|] eqn:Ei; try discriminate. cbv zeta. intros E.
  destruct (if hybrid then _ else _) as [[g' d'] ps] eqn:Eh. injection E as <- <- <- <-.
  apply framestack_Ok in Ef. destruct Ef as [Sh _].
  exists now, frames, outputs, logits, d. split; [auto|]. split; [eapply prep_size; eauto|]. split; [auto|].
  split. { destruct Sh as (older & -> & F). rewrite app_length. cbn. apply Forall2_len in F; unfold frame in *; lia. }
  split; [auto|]. split; [apply py_nth_iff; auto|]. do 4 (split; [reflexivity|]).
  intros HH; rewrite HH in Eh; injection Eh as <- <- <-; auto.
Qed.

(** a call that raises changes nothing *)
Theorem failed_call image view given time (a a' : aligner) r : ia_needs_reset a = false ->
  call image view given time a = (r, a') -> (forall x, r <> Ok x) -> a' = a.
Proof.
  intros H. rewrite call_steps by auto. destruct (prep image) as [now|e|]; try (intros E; injection E as <- <-; auto; fail).
  destruct (bind _ _) as [[logits d]|e|]; try (intros E; injection E as <- <-; auto; fail).
  cbv zeta. destruct (if hybrid then _ else _) as [[g' d'] ps]. intros E. injection E as <- <-. intros N. exfalso. eapply N. reflexivity.
Qed.

(** * C95: after any calls: the last images that were answered, after blanks *)
Definition ask (q : request) (a : aligner) := call (rq_image q) (rq_view q) (rq_grid q) (rq_time q) a.
Fixpoint ask_all (qs : list request) (a : aligner) : list (res (grid * pt * raster (R * R * R))) * aligner :=
  match qs with
  | [] => ([], a)
  | q :: qs => let '(r, a) := ask q a in let '(rs, a) := ask_all qs a in (r :: rs, a)
  end.
(** the images and fields of view of the calls that were answered *)
Inductive answered : list request -> list (res (grid * pt * raster (R * R * R))) -> list (frame * fov) -> Prop :=
| answered_none : answered [] [] []
| answered_yes q qs x rs f l : prep (rq_image q) = Ok f -> answered qs rs l -> answered (q :: qs) (Ok x :: rs) ((f, rq_view q) :: l)
| answered_no q qs r rs l : (forall x, r <> Ok x) -> answered qs rs l -> answered (q :: qs) (r :: rs) l.

Theorem memory qs : forall (a : aligner) rs a', ia_needs_reset a = false -> (length (ia_history a) <= ia_maxlen a)%nat ->
  ask_all qs a = (rs, a') ->
  exists past, answered qs rs past /\ ia_history a' = lastn (ia_maxlen a) (ia_history a ++ past) /\
    ia_maxlen a' = ia_maxlen a /\ ia_needs_reset a' = false.
Proof.
  induction qs as [|q qs IH]; intros a rs a' Hn Hl E; cbn in E.
  { injection E as <- <-. exists []. split; [constructor|]. rewrite app_nil_r. repeat split; auto. symmetry. apply lastn_all. auto. }
  destruct (ask q a) as [r a1] eqn:Ea. destruct (ask_all qs a1) as [rs1 a2] eqn:Er. injection E as <- <-.
  destruct r as [[[g d] p]|e|].
  - destruct (call_answer _ _ _ _ _ _ _ _ _ Hn Ea) as (now & _ & _ & _ & _ & Ep & _ & _ & _ & _ & _ & _ & Eh & Em & En & _).
    destruct (IH a1 rs1 a2 En) as (past & A & H & M & N).
    { rewrite Eh, Em, lastn_length. lia. }
    { exact Er. }
    exists ((now, rq_view q) :: past). split; [constructor; auto|]. rewrite H, Em, Eh, lastn_app, <- app_assoc. repeat split; auto. congruence.
  - assert (a1 = a) by (eapply failed_call; [exact Hn|exact Ea|discriminate]). subst a1.
    destruct (IH a rs1 a2 Hn Hl Er) as (past & A & H & M & N). exists past. split; [constructor; [discriminate|auto]|auto].
  - assert (a1 = a) by (eapply failed_call; [exact Hn|exact Ea|discriminate]). subst a1.
    destruct (IH a rs1 a2 Hn Hl Er) as (past & A & H & M & N). exists past. split; [constructor; [discriminate|auto]|auto].
Qed.
Theorem memory_after_reset n h w qs (a : aligner) a1 rs a' : (0 < n)%nat -> reset n h w a = (Ok tt, a1) -> ask_all qs a1 = (rs, a') ->
  exists past, answered qs rs past /\ length (ia_history a') = (n - 1)%nat /\
    ia_history a' = lastn (n - 1) (repeat (blank h w, dummy_fov) (n - 1) ++ past).
Proof.
  intros Hn E A. destruct (reset_blank n h w a Hn) as (a2 & E2 & H & M & N & _). rewrite E in E2. injection E2 as <-.
  destruct (memory qs a1 rs a' N) as (past & P & H' & M' & _); [rewrite H, M, repeat_length; lia|auto|].
  exists past. split; auto. rewrite H', M, H. split; auto. rewrite lastn_length, app_length, repeat_length. lia.
Qed.

(** the first call of a new aligner is one after a reset with the usual length *)
Theorem first_call image view given time (a : aligner) now : ia_needs_reset a = true -> (0 < default_history_length)%nat ->
  prep image = Ok now ->
  call image view given time a = call image view given time (snd (reset default_history_length 512 512 a)).
Proof.
  intros H Hd Ep. destruct (prep_size _ _ Ep) as [S1 S2].
  destruct (reset_blank default_history_length 512 512 a Hd) as (a1 & E & _ & _ & N & _).
  unfold ia_call. rewrite Ep, S1, S2, H, E. cbn [snd]. rewrite ?N. cbn [bind]. rewrite ?N. cbn [bind]. reflexivity.
Qed.

(** * C95: a call succeeds if the parts do *)
Lemma crop_exn {A} (zero : A) image f0 f1 : (exists out, pad_and_crop_images_by_fov zero image f0 f1 = Ok out) \/
  pad_and_crop_images_by_fov zero image f0 f1 = Raise ValueError.
Proof.
  unfold pad_and_crop_images_by_fov. destruct (_ || _); auto. unfold resize_nearest. destruct (negb _ || negb _); cbn [bind]; [|eauto].
  destruct (_ || _ || _ || _); cbn [bind]; eauto.
Qed.
Theorem call_succeeds image view given time (a : aligner) s now : ia_needs_reset a = false ->
  square_view view s -> Forall (showable s) (ia_history a) -> prep image = Ok now ->
  (forall frames, length frames = S (length (ia_history a)) -> Forall net_size frames ->
     exists outputs x, network frames = Ok outputs /\ at_index outputs time x) ->
  exists x a', call image view given time a = (Ok x, a').
Proof.
  intros Hn V Fh Ep Net. rewrite call_steps, Ep by auto.
  assert (Sh : exists older, Forall2 (fun h f => pad_and_crop_images_by_fov (Some 0) (fst h) (snd h) view = Ok f) (ia_history a) older /\
    Forall net_size older).
  { induction Fh as [|[f0 v0] hs ((S1 & S2) & s0 & V0 & Hs) Fh IH]; [exists []; split; constructor|].
    assert (Fh' : exists older, Forall2 (fun h f => pad_and_crop_images_by_fov (Some 0) (fst h) (snd h) view = Ok f) hs older /\
      Forall net_size older).
    { clear - Fh V. induction Fh as [|[f0 v0] hs ((S1 & S2) & s0 & V0 & Hs) Fh IH]; [exists []; split; constructor|].
      destruct IH as (older & F & N). cbn [fst snd] in *.
      assert (G : / 2 < INR 512 * s0 / s).
      { destruct V as [P _]. apply Rmult_lt_reg_r with s; auto. unfold Rdiv. rewrite (Rmult_assoc (INR 512 * s0)), Rinv_l by lra.
        replace (INR 512) with 512 by (rewrite INR_IZR_INZ; reflexivity). lra. }
      destruct (crop_succeeds (Some 0) f0 v0 view s0 s V0 V) as (out & Eo); [rewrite S1; auto|rewrite S2; auto|].
      exists (out :: older). split; constructor; auto. destruct (crop_shape _ _ _ _ _ Eo) as [C1 C2]. split; congruence. }
    destruct Fh' as (older & F & N). cbn [fst snd] in *.
    assert (G : / 2 < INR 512 * s0 / s).
    { destruct V as [P _]. apply Rmult_lt_reg_r with s; auto. unfold Rdiv. rewrite (Rmult_assoc (INR 512 * s0)), Rinv_l by lra.
      replace (INR 512) with 512 by (rewrite INR_IZR_INZ; reflexivity). lra. }
    destruct (crop_succeeds (Some 0) f0 v0 view s0 s V0 V) as (out & Eo); [rewrite S1; auto|rewrite S2; auto|].
    exists (out :: older). split; constructor; auto. destruct (crop_shape _ _ _ _ _ Eo) as [C1 C2]. split; congruence. }
  destruct Sh as (older & F & N). assert (Fn : Forall net_size (older ++ [now])).
  { apply Forall_app. split; auto. constructor; auto. eapply prep_size; eauto. }
  assert (Ef : framestack (ia_history a) now view = Ok (older ++ [now])).
  { apply framestack_Ok. split; [exists older; auto|]. apply stackable_iff. exists 512%nat, 512%nat. exact Fn. }
  rewrite Ef. cbn [bind]. destruct (Net (older ++ [now])) as (outputs & [logits d] & En & Ei); auto.
  { rewrite app_length. cbn. apply Forall2_len in F; unfold frame in *; lia. }
  rewrite En. cbn [bind]. apply py_nth_iff in Ei. rewrite Ei. cbv zeta.
  destruct (if hybrid then _ else _) as [[g' d'] ps]. eauto.
Qed.

(** * C95: a history of images of another size cannot be used, and stays *)
Theorem wrong_size_stuck qs (a : aligner) rs a' h : ia_needs_reset a = false -> In h (ia_history a) -> ~ net_size (fst h) ->
  ask_all qs a = (rs, a') -> a' = a /\ Forall (fun r => forall x, r <> Ok x) rs.
Proof.
  intros Hn Hi Hw. revert rs a'. induction qs as [|q qs IH]; intros rs a' E; cbn in E.
  { injection E as <- <-. split; auto. }
  destruct (ask q a) as [r a1] eqn:Ea. destruct (ask_all qs a1) as [rs1 a2] eqn:Er. injection E as <- <-.
  assert (NO : forall x, r <> Ok x).
  { intros [[g d] p] ->. unfold ask in Ea. rewrite call_steps in Ea by auto.
    destruct (prep (rq_image q)) as [now|e|] eqn:Ep; try discriminate.
    destruct (framestack (ia_history a) now (rq_view q)) as [frames|e|] eqn:Ef; cbn [bind] in Ea; try discriminate.
    apply framestack_Ok in Ef. destruct Ef as [(older & -> & F) St]. apply stackable_iff in St. destruct St as (hh & ww & Fs).
    apply Forall_app in Fs. destruct Fs as [Fo Fn]. inversion Fn as [|? ? [N1 N2] _]; subst.
    destruct (prep_size _ _ Ep) as [P1 P2]. apply Hw.
    clear - F Fo Hi P1 P2. revert older F Fo. induction (ia_history a) as [|k ks IH]; intros older F Fo; [destruct Hi|].
    inversion F as [|? f ? fs C F']; subst. inversion Fo as [|? ? [C1 C2] Fo']; subst. destruct Hi as [ ->|Hi]; [|eauto].
    destruct (crop_shape _ _ _ _ _ C). unfold net_size, frame in *; split; congruence. }
  assert (a1 = a) by (eapply failed_call; eauto). subst a1. destruct (IH _ _ Er) as [-> F]. split; auto.
Qed.
End Aligner.

(** * C95: the image is scaled to [0, 1] *)
Lemma minimum_spec l : l <> [] -> In (minimum l) l /\ forall x, In x l -> minimum l <= x.
Proof.
  destruct l as [|x l]; [contradiction|]. intros _. cbn [minimum]. induction l as [|y l [IH1 IH2]]; cbn [fold_right].
  - split; [left; auto|]. intros z [->|[]]. lra.
  - split.
    + unfold Rmin at 1. destruct (Rle_dec _ _); [right; left; auto|]. destruct IH1; [left|right; right]; auto.
    + intros z [->|[->|Hz]].
      * eapply Rle_trans; [apply Rmin_r|]. apply IH2. left; auto.
      * apply Rmin_l.
      * eapply Rle_trans; [apply Rmin_r|]. apply IH2. right; auto.
Qed.
Lemma maximum_spec l : l <> [] -> In (maximum l) l /\ forall x, In x l -> x <= maximum l.
Proof.
  destruct l as [|x l]; [contradiction|]. intros _. cbn [maximum]. induction l as [|y l [IH1 IH2]]; cbn [fold_right].
  - split; [left; auto|]. intros z [->|[]]. lra.
  - split.
    + unfold Rmax at 1. destruct (Rle_dec _ _); [|right; left; auto]. destruct IH1; [left|right; right]; auto.
    + intros z [->|[->|Hz]].
      * eapply Rle_trans; [|apply Rmax_r]. apply IH2. left; auto.
      * apply Rmax_l.
      * eapply Rle_trans; [|apply Rmax_r]. apply IH2. right; auto.
Qed.
Lemma In_pixels {A} (r : raster A) x : In x (pixels r) <-> exists i j, (i < rs_height r)%nat /\ (j < rs_width r)%nat /\ x = rs_pixel r i j.
Proof.
  unfold pixels. rewrite in_flat_map. split.
  - intros (i & Hi & Hx). apply in_map_iff in Hx. destruct Hx as (j & <- & Hj). apply in_seq in Hi, Hj. exists i, j. repeat split; auto; lia.
  - intros (i & j & Hi & Hj & ->). exists i. split; [apply in_seq; lia|]. apply in_map_iff. exists j. split; auto. apply in_seq; lia.
Qed.
(** where a nearest-neighbour resize to 512 x 512 takes its pixels from *)
Definition source (n i : nat) : nat := ((2 * i + 1) * n / 1024)%nat.
Lemma source_lt n i : (0 < n)%nat -> (i < 512)%nat -> (source n i < n)%nat.
Proof. intros Hn Hi. unfold source. apply Nat.div_lt_upper_bound; nia. Qed.

Section Preprocess.
Variable equalize : raster R -> res (raster R).
Notation prep := (preprocess equalize false).
Theorem preprocess_fails image : rs_height image = 0%nat \/ rs_width image = 0%nat -> prep image = Raise ValueError.
Proof.
  intros H. unfold preprocess, resize_nearest. cbn [bind]. destruct H as [->| ->]; rewrite ?orb_true_r; reflexivity.
Qed.
(** every value lies in [0, 1], both ends are attained, and the values keep
    their order and the ratios of their differences *)
Theorem preprocess_normalizes image f : prep image = Ok f -> 
  (exists i j i' j', (i < 512)%nat /\ (j < 512)%nat /\ (i' < 512)%nat /\ (j' < 512)%nat /\
    rs_pixel image (source (rs_height image) i) (source (rs_width image) j) <>
    rs_pixel image (source (rs_height image) i') (source (rs_width image) j')) ->
  net_size f /\
  exists lo range, 0 < range /\
    (forall i j, (i < 512)%nat -> (j < 512)%nat -> exists v, rs_pixel f i j = Some v /\ 0 <= v <= 1 /\
      rs_pixel image (source (rs_height image) i) (source (rs_width image) j) = lo + v * range) /\
    (exists i j, (i < 512)%nat /\ (j < 512)%nat /\ rs_pixel f i j = Some 0) /\
    (exists i j, (i < 512)%nat /\ (j < 512)%nat /\ rs_pixel f i j = Some 1).
Proof.
  intros E (i1 & j1 & i2 & j2 & Hi1 & Hj1 & Hi2 & Hj2 & D). split; [eapply prep_size; eauto|].
  unfold preprocess, resize_nearest in E. cbn [bind] in E. destruct (_ || _ || _ || _); cbn [bind] in E; [discriminate|].
  injection E as <-.
  match goal with |- context [normalize ?x] => set (r := x) end.
  assert (Px : forall i j, rs_pixel r i j = rs_pixel image (source (rs_height image) i) (source (rs_width image) j)) by reflexivity.
  assert (NE : pixels r <> []).
  { intros Q. assert (I : In (rs_pixel r i1 j1) (pixels r)) by (apply In_pixels; exists i1, j1; repeat split; auto). rewrite Q in I. destruct I. }
  destruct (minimum_spec _ NE) as [Mi Ml]. destruct (maximum_spec _ NE) as [Xi Xl].
  assert (Hr : 0 < maximum (pixels r) - minimum (pixels r)).
  { assert (I1 : In (rs_pixel r i1 j1) (pixels r)) by (apply In_pixels; exists i1, j1; repeat split; auto).
    assert (I2 : In (rs_pixel r i2 j2) (pixels r)) by (apply In_pixels; exists i2, j2; repeat split; auto).
    pose proof (Ml _ I1). pose proof (Ml _ I2). pose proof (Xl _ I1). pose proof (Xl _ I2). rewrite !Px in *. lra. }
  set (lo := minimum (pixels r)) in *. set (hi := maximum (pixels r)) in *.
  assert (Val : forall i j, rs_pixel (normalize r) i j = Some ((rs_pixel r i j - lo) / (hi - lo))).
  { intros i j. unfold normalize, raster_map. fold lo hi. cbn [rs_pixel]. destruct (Reqb (hi - lo) 0) eqn:Q; auto. apply Reqb_true in Q. lra. }
  exists lo, (hi - lo). split; [auto|]. split; [|split].
  - intros i j Hi Hj. eexists. split; [apply Val|]. rewrite <- Px. split; [|field; lra].
    assert (I : In (rs_pixel r i j) (pixels r)) by (apply In_pixels; exists i, j; repeat split; auto).
    pose proof (Ml _ I). pose proof (Xl _ I). unfold Rdiv. split.
    + apply Rmult_le_pos; [lra|]. left. apply Rinv_0_lt_compat. auto.
    + apply Rmult_le_reg_r with (hi - lo); auto. rewrite Rmult_assoc, Rinv_l by lra. lra.
  - apply In_pixels in Mi. destruct Mi as (i & j & Hi & Hj & Q). exists i, j. split; [auto|]. split; [auto|].
    rewrite Val. f_equal. rewrite <- Q. field. lra.
  - apply In_pixels in Xi. destruct Xi as (i & j & Hi & Hj & Q). exists i, j. split; [auto|]. split; [auto|].
    rewrite Val. f_equal. rewrite <- Q. field. lra.
Qed.
(** a flat image has no values at all *)
Theorem preprocess_flat image f c : prep image = Ok f ->
  (forall i j, (i < rs_height image)%nat -> (j < rs_width image)%nat -> rs_pixel image i j = c) ->
  forall i j, rs_pixel f i j = None.
Proof.
  intros E Hc i j. unfold preprocess, resize_nearest in E. cbn [bind] in E.
  destruct (_ || _ || _ || _) eqn:Z; cbn [bind] in E; [discriminate|]. injection E as <-.
  apply orb_false_iff in Z. destruct Z as [Z Z4]. apply orb_false_iff in Z. destruct Z as [_ Z3]. apply Nat.eqb_neq in Z3, Z4.
  match goal with |- context [normalize ?x] => set (r := x) end.
  assert (Px : forall x, In x (pixels r) -> x = c).
  { intros x Hx. apply In_pixels in Hx. destruct Hx as (k & l & Hk & Hl & ->).
    change (rs_pixel image (source (rs_height image) k) (source (rs_width image) l) = c). apply Hc; apply source_lt; auto; lia. }
  assert (NE : pixels r <> []).
  { intros Q. assert (I : In (rs_pixel r 0 0) (pixels r)) by (apply In_pixels; exists 0%nat, 0%nat; split; [|split]; auto; apply Nat.lt_0_succ).
    rewrite Q in I. destruct I. }
  destruct (minimum_spec _ NE) as [Mi _]. destruct (maximum_spec _ NE) as [Xi _]. apply Px in Mi, Xi.
  unfold normalize, raster_map. cbn [rs_pixel]. rewrite Mi, Xi. destruct (Reqb (c - c) 0) eqn:Q; auto. apply Reqb_false in Q. lra.
Qed.
End Preprocess.

(** * C97: the hybrid aligner *)
Section Hybrid.
Context {PS : Type}.
Variable post_reset : PS -> PS.
Variable post_call : grid -> PS -> res (grid * pt) * PS.
Variable equalize : raster R -> res (raster R).
Variable network : list frame -> res (list (raster (R * R * R) * pt)).
Variable contours : raster bool -> nat -> list moments.
Variable adaptive : bool.
Variable default_history_length : nat.
Notation call hybrid := (ia_call post_reset post_call equalize network contours adaptive hybrid default_history_length).

(** a field of view moved back by a drift *)
Definition undrifted (view : fov) (d : pt) : fov := fov_shift view (mkpt (- px d) (- py d)).
(** atoms of an image, on the material *)
Definition on_material (view : fov) (g : grid) : grid := mkgrid (map (at_relative view) (positions g)) (numbers g).

Theorem hybrid_answers image view given time (a : @aligner PS) : ia_needs_reset a = false ->
  (forall r b, call false image view given time a = (r, b) -> (forall x, r <> Ok x) -> call true image view given time a = (r, a)) /\
  (forall g0 d0 probs b, call false image view given time a = (Ok (g0, d0, probs), b) ->
   exists g d a', call true image view given time a = (Ok (g, d, probs), a') /\ ia_history a' = ia_history b /\
    ((exists pg pd, post_call (on_material (undrifted view d0) g0) (ia_post a) = (Ok (pg, pd), ia_post a') /\
        d = mkpt (px d0 + px pd) (py d0 + py pd) /\ numbers g = numbers pg /\
        positions g = map (relative_to (undrifted view d)) (positions pg)) \/
     (exists r ps, post_call (on_material (undrifted view d0) g0) (ia_post a) = (r, ps) /\ (forall x, r <> Ok x) /\
        g = g0 /\ d = d0 /\ ia_post a' = post_reset ps))).
Proof.
  intros Hn. rewrite !call_steps by auto. split.
  - destruct (preprocess _ _ _) as [now|e|]; try (intros r b E; injection E as <- <-; auto; fail).
    destruct (bind _ _) as [[logits d]|e|]; try (intros r b E; injection E as <- <-; auto; fail).
    intros r b E N. injection E as <- <-. exfalso. eapply N. reflexivity.
  - destruct (preprocess _ _ _) as [now|e|]; try discriminate.
    destruct (bind _ _) as [[logits d]|e|]; try discriminate. cbv zeta beta iota.
    intros g0 d0 probs b E. injection E as <- <- <- <-. set (g0 := match given with Some g => g | None => _ end).
    unfold postprocess. replace (grid_to_material (fov_shift view (pneg d)) g0) with (on_material (undrifted view d) g0)
      by (symmetry; apply grid_to_material_eq).
    destruct (post_call (on_material (undrifted view d) g0) (ia_post a)) as [[[pg pd]|e|] ps] eqn:Ep.
    + do 3 eexists. split; [reflexivity|]. split; [reflexivity|]. left. exists pg, pd. cbn [ia_post]. repeat split.
    + do 3 eexists. split; [reflexivity|]. split; [reflexivity|]. right. do 2 eexists. split; [reflexivity|]. split; [discriminate|]. repeat split.
    + do 3 eexists. split; [reflexivity|]. split; [reflexivity|]. right. do 2 eexists. split; [reflexivity|]. split; [discriminate|]. repeat split.
Qed.
(** so its atoms are where the post-processing puts them *)
Theorem hybrid_places view pg d g : px (lower_left view) <> px (upper_right view) -> py (lower_left view) <> py (upper_right view) ->
  numbers g = numbers pg -> positions g = map (relative_to (undrifted view d)) (positions pg) ->
  on_material (undrifted view d) g = pg.
Proof.
  intros Hx Hy En Ep. unfold on_material. rewrite En, Ep, map_map. destruct pg as [ps ns]. cbn [positions numbers]. f_equal.
  rewrite <- map_id. apply map_ext. intros p. apply at_relative_relative; unfold undrifted, fov_shift; cbn; lra.
Qed.
End Hybrid.

(** with the filter as it is built: the first image after a reset is answered as without it *)
Section HybridFilter.
Context {G : Type}.
Variable s : sampler G.
Variable asort : argsort_fn.
Hypothesis Ha : argsort_ok asort.
Variable find : cliques_fn.
Variable kmeans : list (list R) -> G -> (list R -> Z) * G.
Hypothesis Hk : forall rows g row, fst (kmeans rows g) row = 0%Z \/ fst (kmeans rows g) row = 1%Z.
Variable equalize : raster R -> res (raster R).
Variable network : list frame -> res (list (raster (R * R * R) * pt)).
Variable contours : raster bool -> nat -> list moments.
Variable adaptive : bool.
Variable default_history_length : nat.
Notation call hybrid := (ia_call filter_post_reset (filter_post_call s asort find kmeans) equalize network contours adaptive hybrid default_history_length).

Theorem hybrid_first image view given time (a0 a : @aligner post_state) n h w x b :
  ia_reset filter_post_reset true n h w a0 = (Ok tt, a) ->
  px (lower_left view) <> px (upper_right view) -> py (lower_left view) <> py (upper_right view) ->
  call false image view given time a = (Ok x, b) ->
  exists a', call true image view given time a = (Ok x, a') /\
    ((4 <= length (positions (fst (fst x))))%nat -> exists r, fs_observations (po_filter (ia_post a')) = [r] /\
       array (po_heap (ia_post a')) r = map Some (positions (on_material (undrifted view (snd (fst x))) (fst (fst x))))) /\
    ((length (positions (fst (fst x))) < 4)%nat -> po_filter (ia_post a') = filter_reset).
Proof.
  intros Er Hx Hy E. destruct n as [|n]; [discriminate|]. cbn [ia_reset] in Er. injection Er as <-.
  set (a := mkaligner _ _ _ _) in *. destruct x as [[g0 d0] probs].
  destruct (hybrid_answers filter_post_reset (filter_post_call s asort find kmeans) equalize network contours adaptive
    default_history_length image view given time a eq_refl) as [_ A].
  destruct (A _ _ _ _ E) as (g & d & a' & Ea & _ & Cases). clear A E. cbn [fst snd].
  set (mg := on_material (undrifted view d0) g0) in *. 
  assert (Lm : length (positions mg) = length (positions g0)) by (apply map_length).
  set (p := ia_post a) in *. assert (Ef : po_filter p = filter_reset) by reflexivity.
  remember (filter_post_call s asort find kmeans mg p) as Q eqn:EQ. unfold filter_post_call in EQ.
  unfold alloc in EQ. cbv beta iota in EQ.
  match type of EQ with context [filter_call s asort find kmeans ?q ?o ?f ?h ?g] =>
    set (h1 := h) in EQ; destruct (filter_call s asort find kmeans q o f h1 g) as [[[r st] h'] g'] eqn:Ec end.
  rewrite Ef in Ec.
  destruct (first_observation s asort Ha find kmeans Hk hybrid_params (mkgrid_ref (length (po_heap p)) (numbers mg)) h1 (po_rng p) (positions mg) r st h' g')
    as (-> & Eo & Big & Two & Small); [apply array_alloc_new|exact Ec|].
  cbn [gf_positions] in *.
  destruct (le_lt_dec 4 (length (positions g0))) as [H4|H4].
  - destruct (Big ltac:(lia)) as [-> _]. cbn [bind fst snd gf_positions] in EQ.
    replace (array h1 (length (po_heap p))) with (map Some (positions mg)) in EQ by (symmetry; apply array_alloc_new).
    replace (finite_rows (map Some (positions mg))) with (Some (positions mg)) in EQ by (symmetry; apply finite_rows_iff; reflexivity).
    subst Q. destruct Cases as [(pg & pd & Ep & -> & En & Eg)|(r & ps & Ep & N & _)].
    2:{ injection Ep as <- <-. exfalso. eapply N. reflexivity. }
    injection Ep as <- <- Ei. exists a'. split.
    + rewrite Ea. f_equal. f_equal. f_equal. assert (Ed : mkpt (px d0 + px pzero) (py d0 + py pzero) = d0) by (apply pt_eq; cbn; ring).
      f_equal; [|exact Ed]. rewrite Ed in Eg. cbn [numbers positions gf_numbers] in En, Eg.
      destruct g as [gp gn]. destruct g0 as [qp qn]. cbn [numbers positions] in *. subst gn gp. f_equal.
      unfold mg, on_material. cbn [positions]. rewrite map_map. rewrite <- (map_id qp) at 2. apply map_ext. intros q.
      apply relative_at_relative; unfold undrifted, fov_shift; cbn; lra.
    + split; [|lia]. intros _. rewrite <- Ei. cbn [po_filter po_heap]. exists (length (po_heap p)). split; [exact Eo|]. apply array_alloc_new.
  - assert (Er : exists e, r = Raise e).
    { destruct (Nat.eq_dec (length (positions g0)) 2); [rewrite Two by lia|rewrite Small by lia]; eauto. }
    destruct Er as [e ->]. cbn [bind] in EQ. subst Q. destruct Cases as [(pg & pd & Ep & _)|(r & ps & Ep & N & -> & -> & Ei)]; [discriminate|].
    injection Ep as <- <-. exists a'. split; [exact Ea|]. split; [lia|]. intros _. rewrite Ei. reflexivity.
Qed.
End HybridFilter.

(** * C95: the alignment script: trajectories do not influence each other *)
Theorem script_independent (equalize : raster R -> res (raster R)) network contours adaptive n0
    (post_call : grid -> unit -> res (grid * pt) * unit) args ts a ts' a' :
  (0 < aa_history_length args)%nat -> (aa_iterations args <> 0)%nat ->
  let reset := script_reset (fun u : unit => u) false in
  let call := script_call (fun u : unit => u) post_call equalize network contours adaptive false n0 in
  align_all reset call args ts a = (Ok ts', a') ->
  Forall2 (fun t t' => forall b, exists b', do_alignment reset call t args b = (Ok t', b')) ts ts'.
Proof.
  intros Hl Hi reset call E. apply (aligned_independently reset call args ts a ts' a'); auto.
  intros [hx mx nx []] [hy my ny []]. unfold reset, script_reset. destruct (aa_history_length args); [lia|]. reflexivity.
Qed.
(** what one of its calls is *)
Theorem script_calls {PS} post_reset (post_call : grid -> PS -> res (grid * pt) * PS) equalize network contours adaptive hybrid n0 rows view a :
  let call := ia_call post_reset post_call equalize network contours adaptive hybrid n0 in
  let script := script_call post_reset post_call equalize network contours adaptive hybrid n0 in
  script None view a = (Raise AttributeError, a) /\
  forall g d b, script (Some rows) view a = (Ok (g, d), b) <-> exists probs, call (raster_of rows) view None (-1)%Z a = (Ok (g, d, probs), b).
Proof.
  intros call script. split; [reflexivity|]. intros g d b. unfold script, script_call. fold call.
  destruct (call (raster_of rows) view None (-1)%Z a) as [[[[g1 d1] p1]|e|] a1]; cbn [bind fst]; split.
  - intros E. injection E as <- <- <-. eauto.
  - intros (p & E). injection E as <- <- <- <-. reflexivity.
  - discriminate.
  - intros (p & E). discriminate.
  - discriminate.
  - intros (p & E). discriminate.
Qed.

(** * Examples *)
Definition ex_network (frames : list frame) : res (list (raster (R * R * R) * pt)) :=
  Ok (map (fun f => (mkraster 512 512 (fun _ _ => (1, 0, 0)), mkpt 1 2)) frames).
Definition ex_image : raster R := mkraster 100 100 (fun i j => INR (i + j)).
Definition ex_view : fov := mkfov (mkpt 0 0) (mkpt 20 20).
Definition ex_fresh : @aligner unit := new_aligner tt.
Definition ex_reset := ia_reset (fun u : unit => u) false.
Definition ex_call := ia_call (fun u : unit => u) (fun _ u => (Raise ValueError, u)) (fun r => Ok r) ex_network (fun _ _ => []) false false 5.
Example call_nonvacuous : ia_needs_reset ex_fresh = true /\
  (exists now, preprocess (fun r => Ok r) false ex_image = Ok now) /\
  exists a1, ex_reset 5 512 512 ex_fresh = (Ok tt, a1) /\ ia_needs_reset a1 = false /\ square_view ex_view 20 /\
    Forall (showable 20) (ia_history a1) /\
    exists x a2, ex_call ex_image ex_view None (-1)%Z a1 = (Ok x, a2) /\ snd (fst x) = mkpt 1 2 /\ length (ia_history a2) = 4%nat.
Proof.
  split; [reflexivity|]. assert (P : exists now, preprocess (fun r => Ok r) false ex_image = Ok now) by (eexists; reflexivity).
  split; [exact P|]. destruct P as (now & P).
  destruct (reset_blank (fun u : unit => u) false 5 512 512 ex_fresh) as (a1 & E & H & M & N & _); [lia|].
  exists a1. split; [exact E|]. split; [exact N|].
  assert (V : square_view ex_view 20) by (unfold square_view, ex_view; cbn; lra). split; [exact V|].
  assert (F : Forall (showable 20) (ia_history a1)).
  { rewrite H. cbn [repeat Nat.sub]. repeat constructor; exists 20; (split; [unfold square_view, dummy_fov; cbn; lra|lra]). }
  split; [exact F|].
  destruct (call_succeeds (fun u : unit => u) (fun _ u => (Raise ValueError, u)) (fun r => Ok r) ex_network (fun _ _ => []) false false 5
    ex_image ex_view None (-1)%Z a1 20 now N V F P) as ([[g d] p] & a2 & E2).
  { intros frames L _. unfold ex_network. do 2 eexists. split; [reflexivity|]. exists 4%nat.
    rewrite map_length, L, H, repeat_length. split; [|right; reflexivity].
    rewrite H, repeat_length in L. cbn in L. do 5 (destruct frames as [|? frames]; [discriminate|]). reflexivity. }
  exists (g, d, p), a2. split; [exact E2|].
  destruct (call_answer _ _ _ _ _ _ _ _ _ _ _ _ _ _ _ _ _ N E2) as (now2 & frames & outputs & logits & nd & _ & _ & _ & _ & En & Ei & _ & Eh & _ & _ & Hd).
  destruct (Hd eq_refl) as (-> & _). split.
  - cbn [fst snd]. unfold ex_network in En. injection En as <-. destruct Ei as (k & Ek & _). apply nth_error_In, in_map_iff in Ek.
    destruct Ek as (f & Q & _). injection Q as _ <-. reflexivity.
  - rewrite Eh, lastn_length, app_length, M, H, repeat_length. reflexivity.
Qed.
Example wrong_size_nonvacuous : exists a1, ex_reset 5 256 256 ex_fresh = (Ok tt, a1) /\ ia_needs_reset a1 = false /\
  In (blank 256 256, dummy_fov) (ia_history a1) /\ ~ net_size (blank 256 256).
Proof.
  destruct (reset_blank (fun u : unit => u) false 5 256 256 ex_fresh) as (a1 & E & H & M & N & _); [lia|].
  exists a1. split; [exact E|]. split; [exact N|]. rewrite H. split; [left; reflexivity|]. unfold net_size. cbn [rs_height blank]. lia.
Qed.
Example preprocess_nonvacuous : exists i j i' j', (i < 512)%nat /\ (j < 512)%nat /\ (i' < 512)%nat /\ (j' < 512)%nat /\
  rs_pixel ex_image (source (rs_height ex_image) i) (source (rs_width ex_image) j) <>
  rs_pixel ex_image (source (rs_height ex_image) i') (source (rs_width ex_image) j').
Proof.
  exists 0%nat, 0%nat, 511%nat, 511%nat. repeat split; try lia. cbn [ex_image rs_pixel rs_height rs_width].
  replace (source 100 0) with 0%nat by reflexivity. replace (source 100 511) with 99%nat by reflexivity.
  intros Q. apply INR_eq in Q. discriminate.
Qed.
(** a hybrid aligner, its first image with too few atoms and with enough *)
Example hybrid_nonvacuous : argsort_ok argsort_stable /\
  let kmeans := fun (_ : list (list R)) (g : nat) => ((fun _ : list R => 0%Z), g) in
  (forall rows g row, fst (kmeans rows g) row = 0%Z \/ fst (kmeans rows g) row = 1%Z) /\
  let p := mkpost_state filter_reset [] 0%nat in
  exists a1, ia_reset filter_post_reset true 5 512 512 (new_aligner p) = (Ok tt, a1) /\
  (forall given, exists x b, ia_call filter_post_reset (filter_post_call (ex_sampler 0) argsort_stable find_by_search kmeans)
    (fun r => Ok r) ex_network (fun _ _ => []) false false 5 ex_image ex_view (Some given) (-1)%Z a1 = (Ok x, b) /\ fst (fst x) = given).
Proof.
  split; [apply argsort_stable_ok|]. cbv zeta. split; [intros; left; reflexivity|].
  set (a0 := new_aligner (mkpost_state filter_reset [] 0%nat)).
  destruct (reset_blank filter_post_reset true 5 512 512 a0) as (a1 & E & H & M & N & _); [lia|].
  exists a1. split; [exact E|]. intros given.
  assert (V : square_view ex_view 20) by (unfold square_view, ex_view; cbn; lra).
  assert (F : Forall (showable 20) (ia_history a1)).
  { rewrite H. cbn [repeat Nat.sub]. repeat constructor; exists 20; (split; [unfold square_view, dummy_fov; cbn; lra|lra]). }
  assert (P : exists now, preprocess (fun r => Ok r) false ex_image = Ok now) by (eexists; reflexivity). destruct P as (now & P).
  edestruct (call_succeeds filter_post_reset (filter_post_call (ex_sampler 0) argsort_stable find_by_search
    (fun (_ : list (list R)) (g : nat) => ((fun _ : list R => 0%Z), g))) (fun r => Ok r) ex_network (fun _ _ => []) false false 5
    ex_image ex_view (Some given) (-1)%Z a1 20 now N V F P) as ([[g d] p] & a2 & E2).
  { intros frames L _. unfold ex_network. do 2 eexists. split; [reflexivity|]. exists 4%nat.
    rewrite map_length, L, H, repeat_length. split; [|right; reflexivity].
    rewrite H, repeat_length in L. cbn in L. do 5 (destruct frames as [|? frames]; [discriminate|]). reflexivity. }
  exists (g, d, p), a2. split; [exact E2|].
  destruct (call_answer _ _ _ _ _ _ _ _ _ _ _ _ _ _ _ _ _ N E2) as (now2 & frames & outputs & logits & nd & _ & _ & _ & _ & En & Ei & _ & Eh & _ & _ & Hd).
  destruct (Hd eq_refl) as (_ & _ & ->). reflexivity.
Qed.

Print Assumptions reset_blank.
Print Assumptions reset_zero.
Print Assumptions call_answer.
Print Assumptions failed_call.
Print Assumptions memory.
Print Assumptions memory_after_reset.
Print Assumptions first_call.
Print Assumptions call_succeeds.
Print Assumptions wrong_size_stuck.
Print Assumptions preprocess_fails.
Print Assumptions preprocess_normalizes.
Print Assumptions preprocess_flat.
Print Assumptions hybrid_answers.
Print Assumptions hybrid_places.
Print Assumptions hybrid_first.
Print Assumptions script_independent.
Print Assumptions script_calls.
