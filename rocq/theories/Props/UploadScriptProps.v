(** C110: the blobs that are uploaded, and their names *)
From Coq Require Import Reals ZArith List Bool Arith Lia Lra Ascii String.
From Verif Require Import Base.Prelude Base.Rounding Model.MicroscopeUtils Model.Io Model.Upload Spec.Records Spec.Protos Spec.Grids
  Proofs.BaseFacts Proofs.MaterialFacts Proofs.RoundingFacts Props.Serialisation Props.IoProps Spec.Upload Props.UploadProps.
Import ListNotations.

(** * names *)
Lemma lower_dash c : lower (if Ascii.eqb c "-" then "_"%char else c) <> "-"%char.
Proof. destruct c as [[] [] [] [] [] [] [] []]; vm_compute; discriminate. Qed.
Lemma lower_dot c : lower (if Ascii.eqb c "-" then "_"%char else c) = "."%char -> c = "."%char.
Proof. destruct c as [[] [] [] [] [] [] [] []]; vm_compute; intros H; first [reflexivity|discriminate]. Qed.
Lemma in_acronyms s : forall b c, In c (split_acronyms b s) -> c = "_"%char \/ In c s.
Proof.
  induction s as [|d s IH]; intros b c H; [destruct H|]. cbn in H. apply in_app_or in H. destruct H as [H|H].
  - destruct (b && is_upper d && next_is is_lower s); cbn in H |- *; intuition.
  - apply IH in H. cbn. tauto.
Qed.
Lemma in_words s : forall b c, In c (split_words b s) -> c = "_"%char \/ In c s.
Proof.
  induction s as [|d s IH]; intros b c H; [destruct H|]. cbn in H. apply in_app_or in H. destruct H as [H|H].
  - destruct (b && is_upper d); cbn in H |- *; intuition.
  - apply IH in H. cbn. tauto.
Qed.
Lemma underscore_no_dash s : ~ In "-"%char (underscore s).
Proof. unfold underscore. intros H. apply in_map_iff in H. destruct H as (c & E & _). apply (lower_dash c E). Qed.
Lemma underscore_no_dot s : ~ In "."%char s -> ~ In "."%char (underscore s).
Proof.
  unfold underscore. intros N H. apply in_map_iff in H. destruct H as (c & E & H). apply lower_dot in E. subst c. apply in_words in H. destruct H as [H|H]; [discriminate|]. apply in_acronyms in H. destruct H as [H|H]; [discriminate|auto].
Qed.
Lemma split_unique {A} (x : A) a b a' b' : ~ In x a -> ~ In x a' -> a ++ x :: b = a' ++ x :: b' -> a = a' /\ b = b'.
Proof.
  revert a'. induction a as [|y a IH]; intros a' N N' E; destruct a' as [|z a']; cbn in E.
  - injection E as <-. auto.
  - injection E as <- _. destruct N'. left. auto.
  - injection E as -> _. destruct N. left. auto.
  - injection E as <- E. destruct (IH a') as [-> ->]; auto; intros H; [apply N|apply N']; right; auto.
Qed.
Lemma join_injective ps : forall qs, ps <> [] -> qs <> [] -> (forall p, In p ps -> ~ In "-"%char p) -> (forall p, In p qs -> ~ In "-"%char p) -> join ps = join qs -> ps = qs.
Proof.
  induction ps as [|p ps IH]; intros [|q qs] N N' D D' E; try congruence. destruct ps as [|p1 ps], qs as [|q1 qs].
  - cbn in E. congruence.
  - exfalso. apply (D p); [left; auto|]. cbn in E. rewrite E. apply in_or_app. right. left. auto.
  - exfalso. apply (D' q); [left; auto|]. cbn in E. rewrite <- E. apply in_or_app. right. left. auto.
  - change (p ++ "-"%char :: join (p1 :: ps) = q ++ "-"%char :: join (q1 :: qs)) in E. apply split_unique in E; [|apply D; left; auto|apply D'; left; auto]. destruct E as [-> E].
    f_equal. apply IH; try discriminate; auto; intros r Hr; [apply D|apply D']; right; auto.
Qed.
Lemma in_join c ps : In c (join ps) -> c = "-"%char \/ exists p, In p ps /\ In c p.
Proof.
  induction ps as [|p ps IH]; [intros []|]. destruct ps as [|p1 ps]; [intros H; right; exists p; cbn; auto|]. intros H. change (In c (p ++ "-"%char :: join (p1 :: ps))) in H.
  apply in_app_or in H. destruct H as [H|[H|H]]; [right; exists p; cbn; auto|auto|]. destruct (IH H) as [E|(q & Hq & E)]; [auto|right; exists q; cbn in *; tauto].
Qed.
Lemma suffix_none n : ~ In "."%char n -> path_suffix (mkpath false [n]) = [].
Proof. intros H. unfold path_suffix, path_name. cbn [path_components last]. rewrite rfind_none; [reflexivity|]. intros d Hd ->. auto. Qed.
Lemma rfind_last n x : ~ In "."%char x -> rfind "." (n ++ "."%char :: x) = Some (length n).
Proof. intros H. rewrite (rfind_app "." n ("."%char :: x) 0); [f_equal; lia|]. cbn. rewrite rfind_none; [reflexivity|]. intros d Hd ->. auto. Qed.
Lemma suffix_some n x : n <> [] -> x <> [] -> ~ In "."%char x -> path_suffix (mkpath false [n ++ "."%char :: x]) = "."%char :: x.
Proof.
  intros N X H. unfold path_suffix, path_name. cbn [path_components last]. rewrite rfind_last by auto.
  destruct n as [|c n]; [congruence|]. destruct x as [|d x]; [congruence|]. replace (0 <? length (c :: n))%nat with true by reflexivity.
  replace (length (c :: n) <? length ((c :: n) ++ "."%char :: d :: x) - 1)%nat with true by (symmetry; apply Nat.ltb_lt; rewrite app_length; cbn; lia).
  cbn [andb]. rewrite skipn_app, skipn_all, Nat.sub_diag. reflexivity.
Qed.

(** C110: names without dots of different datasets are different if and only if they differ after
    underscores were put in *)
Theorem blob_names ps qs : ps <> [] -> qs <> [] -> join (map underscore ps) <> [] ->
  (forall p, In p ps -> ~ In "."%char p) -> (forall p, In p qs -> ~ In "."%char p) ->
  (blob_name ps = blob_name qs <-> map underscore ps = map underscore qs).
Proof.
  intros N N' Ne D D'. unfold blob_name. split; [|intros ->; reflexivity]. unfold with_suffix.
  assert (G : forall l, (forall p, In p l -> ~ In "."%char p) -> ~ In "."%char (join (map underscore l))).
  { intros l Hl H. apply in_join in H. destruct H as [H|(p & Hp & H)]; [discriminate|]. apply in_map_iff in Hp. destruct Hp as (p0 & <- & Hp). apply (underscore_no_dot p0); auto. }
  intros E. apply join_injective; try (intros p Hp; apply in_map_iff in Hp; destruct Hp as (p0 & <- & _); apply underscore_no_dash); try (destruct ps, qs; cbn; congruence).
  rewrite !suffix_none in E by auto. cbn [List.length] in E. rewrite !Nat.sub_0_r, !firstn_all in E.
  destruct (join (map underscore ps)) as [|a l] eqn:E1; [congruence|]. destruct (join (map underscore qs)) as [|b m]; [discriminate|]. injection E as -> E. f_equal. apply app_inv_tail in E. auto.
Qed.

(** C110: a name ends in .riegeli, so that the readers of records do not know what to do with it *)
Theorem blob_unreadable_refuted parts n absolute directories : blob_name parts = Ok n -> ~ record_file (mkpath absolute (directories ++ [n])).
Proof.
  unfold blob_name, with_suffix. destruct (join (map underscore parts)) as [|c l]; [discriminate|]. intros E. injection E as <-. intros (ds & stem & E & _). cbn [path_components] in E.
  apply app_inj_tail in E. destruct E as [_ E]. set (a := firstn _ (c :: l)) in E. clearbody a.
  apply (f_equal (@rev ascii)) in E. rewrite !rev_app_distr in E. cbn in E. discriminate.
Qed.

Lemma acronyms_dot a x : forall b, split_acronyms b (a ++ "."%char :: x) = split_acronyms b a ++ "."%char :: split_acronyms false x.
Proof.
  induction a as [|c a IH]; intros b.
  - cbn. rewrite andb_false_r. reflexivity.
  - cbn [app split_acronyms]. rewrite IH. replace (next_is is_lower (a ++ "."%char :: x)) with (next_is is_lower a) by (destruct a; reflexivity). rewrite <- app_assoc. reflexivity.
Qed.
Lemma words_dot a x : forall b, split_words b (a ++ "."%char :: x) = split_words b a ++ "."%char :: split_words false x.
Proof.
  induction a as [|c a IH]; intros b.
  - cbn. rewrite andb_false_r. reflexivity.
  - cbn [app split_words]. rewrite IH, <- app_assoc. reflexivity.
Qed.
Lemma underscore_dot a x : underscore (a ++ "."%char :: x) = underscore a ++ "."%char :: underscore x.
Proof. unfold underscore. rewrite acronyms_dot, words_dot, map_app. reflexivity. Qed.
Lemma join_snoc ps p x : join (ps ++ [p ++ x]) = join (ps ++ [p]) ++ x.
Proof.
  induction ps as [|q ps IH]; [reflexivity|]. cbn [app]. destruct (ps ++ [p ++ x]) as [|r rs] eqn:E1; [destruct ps; discriminate|]. destruct (ps ++ [p]) as [|r' rs'] eqn:E2; [destruct ps; discriminate|].
  change (q ++ "-"%char :: join (r :: rs) = (q ++ "-"%char :: join (r' :: rs')) ++ x). rewrite IH, <- app_assoc. reflexivity.
Qed.
Lemma underscore_nonempty s : s <> [] -> underscore s <> [].
Proof.
  destruct s as [|c s]; [congruence|]. intros _ H. unfold underscore in H. apply (f_equal (@length ascii)) in H. rewrite map_length in H. cbn in H.
  destruct (next_is is_lower s); cbn in H; rewrite ?andb_false_r in H; cbn in H; lia.
Qed.
Lemma with_suffix_some n s : n <> [] -> with_suffix n s = Ok (firstn (length n - length (path_suffix (mkpath false [n]))) n ++ s).
Proof. destruct n; [congruence|reflexivity]. Qed.

(** C110: false that different datasets have different names: what follows the last dot is dropped *)
Theorem blob_names_collide_refuted directories run x y : run <> [] -> x <> [] -> y <> [] -> ~ In "."%char x -> ~ In "."%char y ->
  blob_name (directories ++ [run ++ "."%char :: x]) = blob_name (directories ++ [run ++ "."%char :: y]) /\
  exists n, blob_name (directories ++ [run ++ "."%char :: x]) = Ok n.
Proof.
  intros Nr Nx Ny Dx Dy.
  assert (G : forall z, z <> [] -> ~ In "."%char z -> blob_name (directories ++ [run ++ "."%char :: z]) = Ok (join (map underscore directories ++ [underscore run]) ++ riegeli)).
  { intros z Nz Dz. unfold blob_name. rewrite map_app. cbn [map]. rewrite underscore_dot, join_snoc. set (stem := join (map underscore directories ++ [underscore run])).
    assert (Ns : stem <> []).
    { unfold stem. pose proof (underscore_nonempty run Nr). destruct (map underscore directories) as [|d ds]; [cbn; auto|]. cbn [app]. destruct (ds ++ [underscore run]) eqn:E; [destruct ds; discriminate|]. cbn. destruct d; discriminate. }
    assert (Nw : stem ++ "."%char :: underscore z <> []) by (destruct stem; discriminate).
    rewrite (with_suffix_some _ _ Nw), suffix_some; auto.
    - f_equal. f_equal. rewrite app_length, Nat.add_sub, firstn_app, firstn_all, Nat.sub_diag, app_nil_r. reflexivity.
    - apply underscore_nonempty. auto.
    - apply underscore_no_dot. auto. }
  rewrite !G by auto. split; eauto.
Qed.

(** * uploading *)
Section Script.
Context {B : Type}.
Variable serialize : ptrajectory -> B.
Notation upload_all := (upload_all serialize).
Notation upload_main := (upload_main serialize).
Notation upload_dataset := (upload_dataset serialize).

(** the dataset becomes this blob with this message *)
Definition uploaded (parts : list name) (d : dataset) (n : name) (m : ptrajectory) : Prop :=
  blob_name parts = Ok n /\ exists s frames t, load_dataset d = Ok (s, frames) /\ convert_dataset_to_proto s frames = Ok t /\ trajectory_to_proto t = Ok m.
Definition skipped (parts : list name) (d : dataset) : Prop := (exists n, blob_name parts = Ok n) /\ load_dataset d = Raise ValueError.

Lemma upload_dataset_ok parts d b b' : upload_dataset parts d b = (Ok tt, b') ->
  (skipped parts d /\ b' = b) \/ (exists n m, uploaded parts d n m /\ b' = upload b n [serialize m]).
Proof.
  unfold Upload.upload_dataset, skipped, uploaded. destruct (blob_name parts) as [n|e|]; try discriminate. destruct (load_dataset d) as [[s frames]|e|] eqn:El; try discriminate.
  - destruct (convert_dataset_to_proto s frames) as [t|e|] eqn:Ec; cbn [bind]; try discriminate. destruct (trajectory_to_proto t) as [m|e|] eqn:Et; try discriminate. intros E. injection E as <-. right. exists n, m. split; [|reflexivity]. split; [reflexivity|]. exists s, frames, t. auto.
  - destruct e; try discriminate. intros E. injection E as <-. left. split; [|reflexivity]. eauto.
Qed.
Lemma uploaded_unique parts d n m n' m' : uploaded parts d n m -> uploaded parts d n' m' -> n = n' /\ m = m'.
Proof.
  intros (E1 & s & f & t & E2 & E3 & E4) (F1 & s' & f' & t' & F2 & F3 & F4). rewrite E1 in F1. injection F1 as ->. rewrite E2 in F2. injection F2 as -> ->. rewrite E3 in F3. injection F3 as ->. rewrite E4 in F4. injection F4 as ->. auto.
Qed.
Lemma skipped_not parts d n m : skipped parts d -> ~ uploaded parts d n m.
Proof. intros (_ & E) (_ & s & f & t & F & _). congruence. Qed.

(** C110: a run that finishes has uploaded every dataset it could load: under a name are the data of the last
    dataset with that name, and other blobs are as they were *)
Theorem upload_result datasets : forall b b', upload_all datasets b = (Ok tt, b') ->
  (forall parts d, In (parts, d) datasets -> skipped parts d \/ exists n m, uploaded parts d n m) /\
  (forall n, (forall parts d m, In (parts, d) datasets -> ~ uploaded parts d n m) -> b' n = b n) /\
  (forall before parts d after n m, datasets = before ++ (parts, d) :: after -> uploaded parts d n m ->
     (forall parts' d' m', In (parts', d') after -> ~ uploaded parts' d' n m') -> b' n = Some [serialize m]).
Proof.
  induction datasets as [|[parts d] ds IH]; intros b b' H; cbn [Upload.upload_all] in H.
  - injection H as <-. split; [intros ? ? []|]. split; [auto|]. intros [|? ?]; discriminate.
  - destruct (upload_dataset parts d b) as [[[]|e|] b1] eqn:Eu; try discriminate. apply upload_dataset_ok in Eu. destruct (IH b1 b' H) as (A & N & L). split; [|split].
    + intros parts' d' [E|Hin]; [|auto]. injection E as <- <-. destruct Eu as [[Sk _]|(n & m & U & _)]; [auto|right; eauto].
    + intros n Hn. rewrite N by (intros; apply Hn; right; auto). destruct Eu as [[_ ->]|(n' & m' & U & ->)]; [reflexivity|]. unfold upload. destruct (list_eq_dec ascii_dec n n') as [->|]; [|reflexivity]. exfalso. eapply Hn; [left; reflexivity|exact U].
    + intros before parts' d' after n m E U Hl. destruct before as [|pd before]; cbn in E.
      * injection E as <- <- <-. rewrite N by (intros; apply Hl; auto). destruct Eu as [[Sk _]|(n' & m' & U' & ->)]; [destruct (skipped_not _ _ _ _ Sk U)|].
        destruct (uploaded_unique _ _ _ _ _ _ U U') as [-> ->]. unfold upload. destruct (list_eq_dec ascii_dec n' n'); [reflexivity|congruence].
      * injection E as _ E. eapply L; eauto.
Qed.

(** C110: so if names are different, every dataset that could be loaded is there after the run *)
Theorem upload_complete datasets b b' : upload_all datasets b = (Ok tt, b') ->
  (forall i j pi di pj dj n m m', nth_error datasets i = Some (pi, di) -> nth_error datasets j = Some (pj, dj) -> uploaded pi di n m -> uploaded pj dj n m' -> i = j) ->
  forall parts d, In (parts, d) datasets -> skipped parts d \/ exists n m, uploaded parts d n m /\ b' n = Some [serialize m].
Proof.
  intros H D parts d Hin. destruct (upload_result _ _ _ H) as (A & _ & L). destruct (A parts d Hin) as [Sk|(n & m & U)]; [auto|]. right. exists n, m. split; [auto|].
  apply in_split in Hin. destruct Hin as (l1 & l2 & E). eapply L; eauto. intros parts' d' m' Hin U'. apply In_nth_error in Hin. destruct Hin as (k & Hk).
  assert (Q : length l1 = (length l1 + S k)%nat); [|lia]. eapply (D _ _ parts d parts' d' n m m'); eauto; rewrite E.
  - rewrite nth_error_app2, Nat.sub_diag by lia. reflexivity.
  - rewrite nth_error_app2 by lia. replace (length l1 + S k - length l1)%nat with (S k) by lia. exact Hk.
Qed.

(** C110: a run that raises has uploaded what came before the dataset it stopped at, and nothing else *)
Theorem upload_crash datasets : forall b e b', upload_all datasets b = (Raise e, b') ->
  exists before parts d after, datasets = before ++ (parts, d) :: after /\ upload_all before b = (Ok tt, b') /\ upload_dataset parts d b' = (Raise e, b') /\
    (load_dataset d = Raise ValueError -> blob_name parts = Raise e).
Proof.
  induction datasets as [|[parts d] ds IH]; intros b e b' H; cbn [Upload.upload_all] in H; [discriminate|].
  destruct (upload_dataset parts d b) as [[[]|e1|] b1] eqn:Eu; try discriminate.
  - destruct (IH b1 e b' H) as (l1 & p & d1 & l2 & -> & E1 & E2 & E3). exists ((parts, d) :: l1), p, d1, l2. split; [reflexivity|]. split; [|auto]. cbn [Upload.upload_all]. rewrite Eu. exact E1.
  - injection H as <- <-. exists [], parts, d, ds. assert (b1 = b).
    { revert Eu. unfold Upload.upload_dataset. destruct (blob_name parts) as [n|e|]; try (intros E; injection E as _ <-; reflexivity). destruct (load_dataset d) as [[s fr]|e|]; try discriminate.
      - destruct (convert_dataset_to_proto s fr) as [t|e|]; cbn [bind]; try discriminate; [destruct (trajectory_to_proto t) as [m|e|]; try discriminate|]; intros E; injection E as _ <-; reflexivity.
      - destruct e; intros E; try discriminate; injection E as _ <-; reflexivity. }
    subst b1. split; [reflexivity|]. split; [reflexivity|]. split; [exact Eu|]. intros El. revert Eu. unfold Upload.upload_dataset. destruct (blob_name parts); try discriminate; [rewrite El; discriminate|]. intros E. injection E as ->. reflexivity.
Qed.

(** C110: only datasets below the directory are found; without any the status is one and nothing happens *)
Theorem upload_status datasets b :
  ((forall parts d, In (parts, d) datasets -> parts = []) -> upload_main datasets b = (Ok 1%Z, b)) /\
  ((exists parts d, In (parts, d) datasets /\ parts <> []) -> forall r b', upload_main datasets b = (r, b') ->
     exists ds r0, upload_all ds b = (r0, b') /\ r = fmap_res (fun _ => 0%Z) r0 /\ forall parts d, In (parts, d) ds <-> In (parts, d) datasets /\ parts <> []).
Proof.
  unfold Upload.upload_main.
  assert (F : forall parts d, In (parts, d) (found datasets) <-> In (parts, d) datasets /\ parts <> []).
  { intros parts d. unfold found. rewrite filter_In. cbn. split; intros [H1 H2]; split; auto; destruct parts; congruence. }
  split.
  - intros H. destruct (found datasets) as [|[parts d] ds] eqn:E; [reflexivity|]. exfalso. destruct (proj1 (F parts d) (or_introl eq_refl)) as [H1 H2]. apply H2. eapply H; eauto.
  - intros (parts & d & Hin & Np) r b' H. destruct (found datasets) as [|pd ds] eqn:E; [exfalso; apply (proj2 (F parts d)); auto|].
    destruct (upload_all (pd :: ds) b) as [r0 b0] eqn:Eu. injection H as <- <-. exists (pd :: ds), r0. split; [exact Eu|]. split; [reflexivity|]. exact F.
Qed.

(** C110: what was uploaded reads as the trajectory that was converted, up to single precision *)
Theorem upload_reads parse parts d n m : wire_format serialize parse -> uploaded parts d n m -> (forall s frames, load_dataset d = Ok (s, frames) -> (3 < length frames)%nat) ->
  exists s frames t, load_dataset d = Ok (s, frames) /\ convert_dataset_to_proto s frames = Ok t /\
    parse (serialize m) = Ok m /\ trajectory_from_proto m = map stored_observation t.
Proof.
  intros W (_ & s & frames & t & E1 & E2 & E3) L. exists s, frames, t. split; [auto|]. split; [auto|]. split; [apply W|].
  destruct (trajectory_proto_round_trip t) as (m' & E & R).
  - intros o Ho. apply dataset_converted in E2; [|eapply L; eauto]. destruct E2 as (_ & f0 & fs & _ & _ & N). apply In_nth_error in Ho. destruct Ho as (i & Hi). destruct (N i o Hi) as (f & im & _ & _ & _ & O).
    unfold wf_grid. rewrite (ob_positions _ _ _ _ _ _ O), (ob_numbers _ _ _ _ _ _ O), map_length. reflexivity.
  - rewrite E3 in E. injection E as <-. exact R.
Qed.
End Script.
Print Assumptions blob_names.
Print Assumptions blob_unreadable_refuted.
Print Assumptions blob_names_collide_refuted.
Print Assumptions upload_result.
Print Assumptions upload_complete.
Print Assumptions upload_crash.
Print Assumptions upload_status.
Print Assumptions upload_reads.

(** names, and a run over two datasets one of which has no readout time *)
Example blob_nonvacuous :
  blob_name [list_ascii_of_string "2023-06"; list_ascii_of_string "SiliconRunHTTPServer.2"] = Ok (list_ascii_of_string "2023_06-silicon_run_http_server.riegeli") /\
  blob_name [list_ascii_of_string "Run1"] = blob_name [list_ascii_of_string "run1"] /\
  exists m, uploaded [list_ascii_of_string "Run1"] ex_dataset (list_ascii_of_string "run1.riegeli") m.
Proof.
  split; [reflexivity|]. split; [reflexivity|].
  destruct upload_nonvacuous as (s & frames & tr & E1 & L & E2 & _). destruct (trajectory_proto_round_trip tr) as (m & E & _).
  - intros o Ho. apply dataset_converted in E2; auto. destruct E2 as (_ & f0 & fs & _ & _ & N). apply In_nth_error in Ho. destruct Ho as (i & Hi). destruct (N i o Hi) as (f & im & _ & _ & _ & O).
    unfold wf_grid. rewrite (ob_positions _ _ _ _ _ _ O), (ob_numbers _ _ _ _ _ _ O), map_length. reflexivity.
  - exists m. split; [reflexivity|]. exists s, frames, tr. auto.
Qed.
