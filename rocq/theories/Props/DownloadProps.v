(** Models that are downloaded once: agents (registry.py), the atom detector
    (atom_detector.py) and the image aligner (alignment.py). *)
From Coq Require Import List Bool String Lia Arith.
From Verif Require Import Base.Prelude Model.Downloads Spec.Downloads.
Import ListNotations.
Local Open Scope list_scope.

Lemma path_eqb_true p q : path_eqb p q = true <-> p = q.
Proof. unfold path_eqb. destruct (list_eq_dec string_dec p q); split; congruence. Qed.
Lemma path_eqb_false p q : path_eqb p q = false <-> p <> q.
Proof. unfold path_eqb. destruct (list_eq_dec string_dec p q); split; congruence. Qed.
Lemma path_eqb_refl p : path_eqb p p = true.
Proof. apply path_eqb_true. reflexivity. Qed.

Section Facts.
Context {Byte Net : Type}.
Notation content := (list Byte).
Implicit Types d : @disk Byte.

Lemma do_writes_app d ws ws' : do_writes d (ws ++ ws') = do_writes (do_writes d ws) ws'.
Proof. apply fold_left_app. Qed.

Lemma mkdirs_files p d : d_file (do_writes d (mkdirs p)) = d_file d.
Proof.
  unfold mkdirs. generalize (ancestors p). intro l. revert d. induction l as [|q l IH]; intro d; [reflexivity|].
  cbn. unfold do_writes in IH. rewrite IH. reflexivity.
Qed.
Definition put_over (before : name_path -> option content) (p : name_path) (c : content) : name_path -> option content :=
  fun q => if path_eqb p q then Some c else before q.
Lemma extract_entry_file base e d q : d_file (do_writes d (extract_entry base e)) q = put_over (d_file d) (base ++ fst e) (snd e) q.
Proof.
  unfold extract_entry. rewrite do_writes_app. cbn [do_writes fold_left do_write d_file]. unfold do_writes; cbn [fold_left do_write d_file].
  unfold put_over. destruct (path_eqb (base ++ fst e) q); [reflexivity|].
  change (fold_left do_write (mkdirs (removelast (base ++ fst e))) d) with (do_writes d (mkdirs (removelast (base ++ fst e)))).
  rewrite mkdirs_files. reflexivity.
Qed.
Lemma extract_all_cons base e es d : do_writes d (extract_all base (e :: es)) = do_writes (do_writes d (extract_entry base e)) (extract_all base es).
Proof. unfold extract_all; cbn [flat_map]. apply do_writes_app. Qed.

Lemma extract_all_other base es d q : (forall e, In e es -> base ++ fst e <> q) ->
  d_file (do_writes d (extract_all base es)) q = d_file d q.
Proof.
  revert d. induction es as [|e es IH]; intros d H; [reflexivity|].
  rewrite extract_all_cons, IH by (intros; apply H; right; assumption).
  rewrite extract_entry_file. unfold put_over. specialize (H e (or_introl eq_refl)).
  destruct (path_eqb _ q) eqn:E; [apply path_eqb_true in E; contradiction (H E)|reflexivity].
Qed.
Lemma extract_all_unpacked base es d : unpacked_over (files_in d base) es (files_in (do_writes d (extract_all base es)) base).
Proof.
  revert d. induction es as [|e es IH]; intros d p.
  - right. split; [intros []|reflexivity].
  - rewrite extract_all_cons. destruct (IH (do_writes d (extract_entry base e)) p) as [(l & c & r & -> & Hr & H) | (Hn & H)].
    + left. exists (e :: l), c, r. auto.
    + unfold files_in in H at 2. rewrite extract_entry_file in H. unfold put_over in H.
      destruct (path_eqb (base ++ fst e) (base ++ p)) eqn:E.
      * apply path_eqb_true, app_inv_head in E. left. exists [], (snd e), es. subst p.
        split; [destruct e; reflexivity|]. auto.
      * apply path_eqb_false in E. right. split; [|exact H]. cbn. intros [K | K]; [apply E; f_equal; assumption|auto].
Qed.

Lemma retrieve_file p t d q : d_file (do_writes d (retrieve p t)) q = put_over (d_file d) p (concat (fst t)) q.
Proof.
  unfold retrieve. destruct t as [blocks e]; cbn [fst].
  assert (H : forall before d, d_file d p = Some before -> d_file (do_writes d (put_blocks p before blocks)) q =
    put_over (d_file d) p (before ++ concat blocks) q).
  { clear d. induction blocks as [|b bs IH]; intros before d Hd.
    - cbn. unfold put_over. rewrite app_nil_r. destruct (path_eqb p q) eqn:E; [apply path_eqb_true in E; congruence|reflexivity].
    - cbn [put_blocks concat]. unfold do_writes in *. cbn [fold_left]. rewrite IH by (cbn; rewrite path_eqb_refl; reflexivity).
      unfold put_over; cbn. rewrite <- app_assoc. destruct (path_eqb p q); reflexivity. }
  unfold do_writes in *. cbn [fold_left]. rewrite H by (cbn; rewrite path_eqb_refl; reflexivity).
  unfold put_over; cbn. destruct (path_eqb p q); reflexivity.
Qed.

(** writes that leave a directory alone *)
Definition avoids (m : name_path) (w : @write Byte) : Prop :=
  match w with Mkdir p => p <> m | Put p _ | Unlink p => forall rest, p <> m ++ rest end.
Lemma avoids_files m ws d rest : Forall (avoids m) ws -> files_in (do_writes d ws) m rest = files_in d m rest.
Proof.
  revert d. induction ws as [|w ws IH]; intros d H; [reflexivity|].
  inversion H as [|? ? Hw Hws]; subst. unfold do_writes in *. cbn [fold_left]. rewrite IH by assumption.
  destruct w; cbn in Hw |- *; [reflexivity| |]; unfold files_in; cbn;
    (destruct (path_eqb p (m ++ rest)) eqn:E; [apply path_eqb_true in E; contradiction (Hw rest E)|reflexivity]).
Qed.
Lemma avoids_exists m ws d : Forall (avoids m) ws -> exists_path (do_writes d ws) m = exists_path d m.
Proof.
  intro H. unfold exists_path. pose proof (avoids_files m ws d [] H) as Hf. unfold files_in in Hf. rewrite app_nil_r in Hf.
  rewrite Hf. f_equal. clear Hf. revert d. induction ws as [|w ws IH]; intro d; [reflexivity|].
  inversion H as [|? ? Hw Hws]; subst. unfold do_writes in *. cbn [fold_left]. rewrite IH by assumption.
  destruct w; cbn in Hw |- *; try reflexivity.
  destruct (path_eqb p m) eqn:E; [apply path_eqb_true in E; contradiction (Hw E)|reflexivity].
Qed.
Lemma Forall_firstn {A} (P : A -> Prop) n l : Forall P l -> Forall P (firstn n l).
Proof. intro H. revert n. induction H; intros [|n]; cbn; constructor; auto. Qed.

Lemma do_writes_below m ws d d' rest : (forall r, files_in d m r = files_in d' m r) ->
  files_in (do_writes d ws) m rest = files_in (do_writes d' ws) m rest.
Proof.
  revert d d'. induction ws as [|w ws IH]; intros d d' H; [apply H|].
  unfold do_writes in *. cbn [fold_left]. apply IH. intro r.
  specialize (H r). unfold files_in in *. destruct w; cbn; [assumption| |]; rewrite H; reflexivity.
Qed.
Lemma exists_mono m ws d : d_dir d m = true -> d_dir (do_writes d ws) m = true.
Proof.
  revert d. induction ws as [|w ws IH]; intros d H; [assumption|].
  unfold do_writes in *. cbn [fold_left]. apply IH. destruct w; cbn; [rewrite H; apply orb_true_r| |]; assumption.
Qed.

Lemma retrieve_avoids name t : name <> "tmp.zip"%string -> Forall (avoids (model_at name)) (retrieve zip_path t).
Proof.
  intro Hn. assert (Hz : forall rest, zip_path <> model_at name ++ rest).
  { intros rest E. injection E as E. congruence. }
  unfold retrieve. constructor; [exact Hz|]. generalize (@nil Byte). induction (fst t) as [|b bs IH]; intro c; constructor; [exact Hz|apply IH].
Qed.
Lemma weights_avoids name : avoids (model_at name) (Mkdir weights).
Proof. cbn. discriminate. Qed.
Lemma unlink_avoids name : name <> "tmp.zip"%string -> avoids (model_at name) (Unlink zip_path).
Proof. intros Hn rest E. injection E as E. congruence. Qed.
Lemma In_ancestors p q : In q (ancestors p) -> exists n, (1 <= n <= length p)%nat /\ q = firstn n p.
Proof. intro H. apply in_map_iff in H. destruct H as (n & <- & Hn). apply in_seq in Hn. exists n. split; [lia|reflexivity]. Qed.
Lemma extract_avoids name other (entries : list (name_path * content)) : archive_of other entries -> other <> name ->
  Forall (avoids (model_at name)) (extract_all weights entries).
Proof.
  intros Ha Hne. unfold extract_all. rewrite Forall_forall. intros w Hw. apply in_flat_map in Hw.
  destruct Hw as (e & He & Hw). unfold archive_of in Ha. rewrite Forall_forall in Ha. destruct (Ha e He) as (rest & Hr & Ee).
  destruct e as [p0 c0]. cbn [fst] in Ee. subst p0. unfold extract_entry in Hw. cbv zeta in Hw. cbn [fst snd] in Hw. apply in_app_or in Hw. destruct Hw as [Hw | Hw].
  - apply in_map_iff in Hw. destruct Hw as (q & <- & Hq). apply In_ancestors in Hq. destruct Hq as (n & _ & ->). cbn [avoids].
    intro E. destruct rest as [|x rest]; [contradiction|]. cbn [weights app removelast] in E.
    destruct n as [|[|n]]; cbn in E; try discriminate. injection E as E _. congruence.
  - destruct Hw as [<- | [<- | []]]; cbn [avoids]; intros r E; cbn in E; injection E as E; congruence.
Qed.
(** the first two writes of an extraction, and no file before them *)
Lemma extract_starts name (entries : list (name_path * content)) : archive_of name entries -> entries <> [] ->
  exists ws, extract_all weights entries = Mkdir weights :: Mkdir (model_at name) :: ws.
Proof.
  intros Ha He. destruct entries as [|[p c] es]; [contradiction|]. inversion Ha as [|? ? (rest & Hr & E) _]; subst.
  cbn in E. subst p. destruct rest as [|x rest]; [contradiction|].
  unfold extract_all. cbn [flat_map]. unfold extract_entry, mkdirs, ancestors. cbn [fst app weights].
  change (removelast ("model_weights"%string :: name :: x :: rest)) with ("model_weights"%string :: name :: removelast (x :: rest)).
  cbn [length seq map app firstn]. eexists. reflexivity.
Qed.
Lemma extract_exists name (entries : list (name_path * content)) k : archive_of name entries ->
  (forall d, d_dir (do_writes d (firstn k (extract_all weights entries))) (model_at name) = true) \/
  forall d rest, files_in (do_writes d (firstn k (extract_all weights entries))) (model_at name) rest = files_in d (model_at name) rest.
Proof.
  intro Ha. destruct entries as [|e es]; [right; intros d rest; destruct k; reflexivity|].
  destruct (extract_starts name (e :: es) Ha) as (ws & ->); [discriminate|].
  destruct k as [|[|k]]; [right; reflexivity|right; reflexivity|left; intro d].
  cbn [firstn]. unfold do_writes. cbn [fold_left]. apply exists_mono. cbn [do_write d_dir]. rewrite path_eqb_refl. reflexivity.
Qed.

Variable unzip : content -> res (list (name_path * content)).
Variable load : (name_path -> option content) -> res Net.

(** what a run can write *)
Lemma tf_writes name net d : let ws := fst (tf_agent unzip load name net d) in
  (exists_path d (model_at name) = true /\ ws = [Mkdir weights]) \/
  (exists_path d (model_at name) = false /\
   (ws = Mkdir weights :: retrieve zip_path net \/
    exists entries, snd net = None /\ unzip (concat (fst net)) = Ok entries /\
      ws = Mkdir weights :: retrieve zip_path net ++ extract_all weights entries ++ [Unlink zip_path])).
Proof.
  unfold tf_agent. change (weights ++ [name]) with (model_at name). destruct (exists_path d (model_at name)); [left; auto|right].
  split; [reflexivity|]. destruct (snd net) as [e|]; [left; reflexivity|].
  destruct (unzip _) as [entries|e|]; [right|left; reflexivity|left; reflexivity].
  exists entries. cbn [fst]. split; [reflexivity|]; split; [reflexivity|]. reflexivity.
Qed.

(** the writes of a run up to the cut *)
Definition done (r : run) (d : @disk Byte) : list write :=
  let ws := fst (tf_agent unzip load (r_name r) (r_net r) d) in match r_cut r with None => ws | Some n => firstn n ws end.
Lemma after_done d r : after_run unzip load d r = do_writes d (done r d).
Proof. unfold after_run, done, cut. destruct (r_cut r); reflexivity. Qed.
Lemma done_Forall P r d : Forall P (fst (tf_agent unzip load (r_name r) (r_net r) d)) -> Forall P (done r d).
Proof. unfold done. destruct (r_cut r); [apply Forall_firstn|auto]. Qed.

Lemma run_other d r name : honest unzip r -> name <> "tmp.zip"%string -> name <> r_name r ->
  Forall (avoids (model_at name)) (done r d).
Proof.
  intros (Hz & Hh) Hn Hne. apply done_Forall. destruct (tf_writes (r_name r) (r_net r) d) as [(_ & ->) | (_ & [-> | (entries & _ & Hu & ->)])].
  - constructor; [apply weights_avoids|constructor].
  - constructor; [apply weights_avoids|apply retrieve_avoids; assumption].
  - constructor; [apply weights_avoids|]. rewrite !Forall_app. split; [apply retrieve_avoids; assumption|].
    split; [apply (extract_avoids name (r_name r)); auto|]. constructor; [apply unlink_avoids; assumption|constructor].
Qed.
Lemma run_kept d r : honest unzip r -> exists_path d (model_at (r_name r)) = true -> Forall (avoids (model_at (r_name r))) (done r d).
Proof.
  intros _ He. apply done_Forall. destruct (tf_writes (r_name r) (r_net r) d) as [(_ & ->) | (K & _)]; [|congruence].
  constructor; [apply weights_avoids|constructor].
Qed.
(** a run for a model that is not there: nothing happens to it, or a part of an
    archive is unpacked *)
Lemma run_missing d r : honest unzip r -> exists_path d (model_at (r_name r)) = false ->
  Forall (avoids (model_at (r_name r))) (done r d) \/
  exists entries before last k, snd (r_net r) = None /\ unzip (concat (fst (r_net r))) = Ok entries /\
    done r d = before ++ firstn k (extract_all weights entries) ++ last /\
    Forall (avoids (model_at (r_name r))) before /\ Forall (avoids (model_at (r_name r))) last /\
    (r_cut r = None -> k = length (extract_all weights entries)).
Proof.
  intros (Hz & Hh) He. set (m := model_at (r_name r)).
  destruct (tf_writes (r_name r) (r_net r) d) as [(K & _) | (_ & [E | (entries & Hs & Hu & E)])]; [congruence| |].
  - left. apply done_Forall. rewrite E. constructor; [apply weights_avoids|apply retrieve_avoids; assumption].
  - right. set (got := Mkdir weights :: retrieve zip_path (r_net r)) in *.
    change (Mkdir weights :: retrieve zip_path (r_net r) ++ extract_all weights entries ++ [Unlink zip_path])
      with (got ++ extract_all weights entries ++ [Unlink zip_path]) in E.
    assert (Hgot : Forall (avoids m) got) by (constructor; [apply weights_avoids|apply retrieve_avoids; assumption]).
    assert (Hun : Forall (avoids m) [@Unlink Byte zip_path]) by (constructor; [apply unlink_avoids; assumption|constructor]).
    unfold done. rewrite E. destruct (r_cut r) as [n|].
    + exists entries, (firstn n got), (firstn (n - length got - length (extract_all weights entries)) [Unlink zip_path]), (n - length got)%nat.
      rewrite !firstn_app. repeat split; try assumption; try (apply Forall_firstn; assumption). discriminate.
    + exists entries, got, [Unlink zip_path], (length (extract_all weights entries)).
      rewrite firstn_all. repeat split; assumption.
Qed.

(** what can be on disk *)
Definition part_of (runs : list (@run Byte)) (d : @disk Byte) (name : string) : Prop :=
  exists r entries k, In r runs /\ r_name r = name /\ snd (r_net r) = None /\ unzip (concat (fst (r_net r))) = Ok entries /\
    (r_cut r = None -> k = length (extract_all weights entries)) /\
    forall rest, files_in d (model_at name) rest =
      files_in (do_writes new_disk (firstn k (extract_all weights entries))) (model_at name) rest.
Lemma history runs : Forall (honest unzip) runs -> forall name, name <> "tmp.zip"%string ->
  let d := after_runs unzip load runs new_disk in
  (exists_path d (model_at name) = true -> part_of runs d name) /\
  (exists_path d (model_at name) = false -> forall rest, files_in d (model_at name) rest = None).
Proof.
  induction runs as [|r runs IH] using rev_ind; intros Hh name Hn; cbv zeta.
  { split; [discriminate|reflexivity]. }
  apply Forall_app in Hh. destruct Hh as [Hh Hr]. inversion Hr as [|? ? Hr' _]; subst. specialize (IH Hh).
  unfold after_runs in *. rewrite fold_left_app. cbn [fold_left]. set (d := fold_left (after_run unzip load) runs new_disk) in *.
  rewrite after_done.
  assert (Hkeep : Forall (avoids (model_at name)) (done r d) ->
    (exists_path (do_writes d (done r d)) (model_at name) = true -> part_of (runs ++ [r]) (do_writes d (done r d)) name) /\
    (exists_path (do_writes d (done r d)) (model_at name) = false -> forall rest, files_in (do_writes d (done r d)) (model_at name) rest = None)).
  { intro Ha. rewrite (avoids_exists _ _ d Ha). destruct (IH name Hn) as [I1 I2]. split.
    - intro He. destruct (I1 He) as (r' & entries & k & Hin & A & B & C & D & F). exists r', entries, k.
      split; [apply in_or_app; left; assumption|]. do 4 (split; [assumption|]). intro rest. rewrite (avoids_files _ _ d rest Ha). apply F.
    - intros He rest. rewrite (avoids_files _ _ d rest Ha). apply I2; assumption. }
  destruct (string_dec name (r_name r)) as [-> | Hne]; [|apply Hkeep, run_other; assumption].
  destruct (exists_path d (model_at (r_name r))) eqn:He; [apply Hkeep, run_kept; assumption|].
  destruct (run_missing d r Hr' He) as [Ha | (entries & before & last & k & Hs & Hu & -> & Hb & Hl & Hk)]; [apply Hkeep; assumption|].
  assert (Hf : forall rest, files_in (do_writes d (before ++ firstn k (extract_all weights entries) ++ last)) (model_at (r_name r)) rest =
    files_in (do_writes new_disk (firstn k (extract_all weights entries))) (model_at (r_name r)) rest).
  { intro rest. rewrite !do_writes_app, (avoids_files _ last _ rest Hl). apply do_writes_below. intro q.
    rewrite (avoids_files _ before _ q Hb). rewrite (proj2 (IH _ Hn) He). reflexivity. }
  split.
  - intros _. exists r, entries, k. split; [apply in_or_app; right; left; reflexivity|]. do 4 (split; [auto|]). exact Hf.
  - intros K rest. rewrite Hf. rewrite !do_writes_app, (avoids_exists _ last _ Hl) in K.
    destruct (extract_exists (r_name r) entries k (proj2 Hr' entries Hu)) as [Hd | Hd]; [|rewrite Hd; reflexivity].
    exfalso. unfold exists_path in K. rewrite Hd in K. discriminate.
Qed.

(** After any runs, each cut anywhere, a model that is there consists of a first
    part of what one of the runs for it unpacked; of all of it, if that run was
    not cut. *)
Theorem download_history : forall (runs : list run) (name : string),
  Forall (honest unzip) runs -> name <> "tmp.zip"%string ->
  let d := after_runs unzip load runs new_disk in
  exists_path d (model_at name) = true ->
  exists r entries k, In r runs /\ r_name r = name /\ snd (r_net r) = None /\ unzip (concat (fst (r_net r))) = Ok entries /\
    (r_cut r = None -> k = length (extract_all weights entries)) /\
    forall rest, files_in d (model_at name) rest =
      files_in (do_writes new_disk (firstn k (extract_all weights entries))) (model_at name) rest.
Proof. intros runs name Hh Hn d He. apply (proj1 (history runs Hh name Hn) He). Qed.

(** If it is not there, the next run that gets an archive unpacks all of it, and
    nothing else, and loads it. *)
Theorem download_fresh : forall (runs : list run) (name : string) (net : transfer) (entries : list (name_path * content)),
  Forall (honest unzip) runs -> name <> "tmp.zip"%string ->
  let d := after_runs unzip load runs new_disk in
  exists_path d (model_at name) = false ->
  snd net = None -> unzip (concat (fst net)) = Ok entries -> archive_of name entries ->
  exists ws, tf_agent unzip load name net d = (ws, load (files_in (do_writes d ws) (model_at name))) /\
    unpacked_over (fun p => if list_eq_dec string_dec p ["tmp.zip"%string] then None else files_in d weights p)
      entries (files_in (do_writes d ws) weights) /\
    forall rest, files_in d weights (name :: rest) = None.
Proof.
  intros runs name net entries Hh Hn d He Hs Hu Ha. unfold tf_agent. change (weights ++ [name]) with (model_at name).
  rewrite He, Hs, Hu. eexists. split; [reflexivity|]. split.
  - rewrite !do_writes_app. set (d1 := do_writes (do_writes d [Mkdir weights]) (retrieve zip_path net)).
    intro p. assert (Hz : forall q, d_file (do_writes (do_writes d1 (extract_all weights entries)) [Unlink zip_path]) q =
      if path_eqb zip_path q then None else d_file (do_writes d1 (extract_all weights entries)) q) by reflexivity.
    destruct (extract_all_unpacked weights entries d1 p) as [(l & c & r & El & Hr & Hp) | (Hni & Hp)].
    + left. exists l, c, r. split; [assumption|]; split; [assumption|]. unfold files_in in *. rewrite Hz.
      destruct (path_eqb zip_path (weights ++ p)) eqn:E; [|assumption]. exfalso.
      apply path_eqb_true, app_inv_head in E. subst p.
      unfold archive_of in Ha. rewrite Forall_forall in Ha. destruct (Ha (["tmp.zip"%string], c)) as (rest & Hne & K).
      * rewrite El. apply in_or_app. right. left. reflexivity.
      * cbn in K. injection K as K1 K2. congruence.
    + right. split; [assumption|]. unfold files_in in *. rewrite Hz.
      destruct (path_eqb zip_path (weights ++ p)) eqn:E.
      * apply path_eqb_true, app_inv_head in E. subst p. destruct (list_eq_dec string_dec _ _) as [_ | K]; [reflexivity|contradiction K; reflexivity].
      * rewrite Hp. unfold d1. rewrite retrieve_file. unfold put_over. rewrite E. apply path_eqb_false in E.
        change (d_file (do_writes d [Mkdir weights])) with (d_file d).
        destruct (list_eq_dec string_dec p ["tmp.zip"%string]) as [-> | _]; [contradiction E; reflexivity|reflexivity].
  - intro rest. exact (proj2 (history runs Hh name Hn) He rest).
Qed.

(** Once it is there it stays as it is: neither later runs nor the network
    matter any more. *)
Theorem download_kept : forall (d : disk) (name : string) (runs : list run),
  exists_path d (model_at name) = true -> Forall (honest unzip) runs -> name <> "tmp.zip"%string ->
  let d' := after_runs unzip load runs d in
  (forall rest, files_in d' (model_at name) rest = files_in d (model_at name) rest) /\
  forall net, exists ws, tf_agent unzip load name net d' = (ws, load (files_in (do_writes d' ws) (model_at name))) /\
    forall rest, files_in (do_writes d' ws) (model_at name) rest = files_in d (model_at name) rest.
Proof.
  intros d name runs He Hh Hn.
  assert (H : exists_path (after_runs unzip load runs d) (model_at name) = true /\
    forall rest, files_in (after_runs unzip load runs d) (model_at name) rest = files_in d (model_at name) rest).
  { unfold after_runs. revert d He. induction Hh as [|r runs Hr _ IH]; intros d He; [auto|]. cbn [fold_left].
    assert (Ha : Forall (avoids (model_at name)) (done r d)).
    { destruct (string_dec name (r_name r)) as [-> | Hne]; [apply run_kept|apply run_other]; assumption. }
    rewrite after_done. destruct (IH (do_writes d (done r d))) as [I1 I2]; [rewrite avoids_exists; assumption|].
    split; [assumption|]. intro rest. rewrite I2. apply avoids_files; assumption. }
  destruct H as [H1 H2]. cbv zeta. split; [assumption|]. intro net. exists [Mkdir weights].
  unfold tf_agent. change (weights ++ [name]) with (model_at name). rewrite H1. split; [reflexivity|]. exact H2.
Qed.

(** A run that raises before it has an archive leaves no trace of the model: the
    next one tries again. *)
Theorem download_retry : forall (d : disk) (name : string) (net : transfer),
  name <> "tmp.zip"%string -> exists_path d (model_at name) = false ->
  (exists e, snd net = Some e) \/ (exists e, unzip (concat (fst net)) = Raise e) ->
  exists ws e, tf_agent unzip load name net d = (ws, Raise e) /\
    exists_path (do_writes d ws) (model_at name) = false /\
    forall p, p <> zip_path -> d_file (do_writes d ws) p = d_file d p.
Proof.
  intros d name net Hn He H. unfold tf_agent. change (weights ++ [name]) with (model_at name). rewrite He.
  assert (Ha : Forall (avoids (model_at name)) ([Mkdir weights] ++ retrieve zip_path net)).
  { constructor; [apply weights_avoids|apply retrieve_avoids; assumption]. }
  assert (Hf : forall p, p <> zip_path -> d_file (do_writes d ([Mkdir weights] ++ retrieve zip_path net)) p = d_file d p).
  { intros p Hp. rewrite do_writes_app, retrieve_file. unfold put_over. destruct (path_eqb zip_path p) eqn:E; [|reflexivity].
    apply path_eqb_true in E. congruence. }
  assert (He' : exists_path (do_writes d ([Mkdir weights] ++ retrieve zip_path net)) (model_at name) = false).
  { rewrite (avoids_exists _ _ d Ha). assumption. }
  destruct (snd net) as [e|].
  - exists ([Mkdir weights] ++ retrieve zip_path net), e. auto.
  - destruct H as [(e & K) | (e & ->)]; [discriminate|]. exists ([Mkdir weights] ++ retrieve zip_path net), e. auto.
Qed.
End Facts.
Print Assumptions download_history.
Print Assumptions download_fresh.
Print Assumptions download_kept.
Print Assumptions download_retry.

(** An archive of a model with two files; a byte is a natural number. *)
Definition ex_archive : list (name_path * list nat) :=
  [(["agent"; "saved_model.pb"], [1; 2]); (["agent"; "variables"; "data"], [3])]%string.
Definition ex_unzip (c : list nat) : res (list (name_path * list nat)) :=
  match c with [7; 8]%nat => Ok ex_archive | _ => Raise ValueError end.
Definition ex_net : transfer := ([[7]; [8]]%nat, None).
(** a loader that needs the first file only *)
Definition ex_load (files : name_path -> option (list nat)) : res (option (list nat)) :=
  match files ["saved_model.pb"%string] with
  | Some _ => Ok (files ["variables"; "data"]%string)
  | None => Raise FileNotFoundError
  end.

(** False: a run that succeeds has loaded the whole model.  A run that was cut
    while it unpacked leaves a part behind, which all later runs take. *)
Theorem download_complete_refuted :
  exists (runs : list run),
    Forall (honest ex_unzip) runs /\
    let d := after_runs ex_unzip ex_load runs new_disk in
    forall later net, Forall (honest ex_unzip) later ->
      snd (tf_agent ex_unzip ex_load "agent" net (after_runs ex_unzip ex_load later d)) = Ok None /\
      snd (tf_agent ex_unzip ex_load "agent" ex_net new_disk) = Ok (Some [3]%nat).
Proof.
  exists [mkrun "agent" ex_net (Some 8)].
  assert (Hu : honest ex_unzip (mkrun "agent" ex_net (Some 8))).
  { split; [discriminate|]. intros entries E. injection E as <-.
    repeat constructor; eexists; (split; [|reflexivity]); discriminate. }
  split; [constructor; [exact Hu|constructor]|]. cbv zeta. intros later net Hl.
  set (d := after_runs ex_unzip ex_load [mkrun "agent" ex_net (Some 8)] new_disk).
  assert (He : exists_path d (model_at "agent") = true) by reflexivity.
  destruct (download_kept ex_unzip ex_load d "agent" later He Hl ltac:(discriminate)) as [_ H].
  destruct (H net) as (ws & -> & Hf). cbn [snd]. split; [|reflexivity].
  unfold ex_load. rewrite !Hf. reflexivity.
Qed.
Print Assumptions download_complete_refuted.

(** It can be downloaded, and a download can fail. *)
Example download_nonvacuous :
  snd (tf_agent ex_unzip ex_load "agent" ex_net new_disk) = Ok (Some [3]%nat) /\
  archive_of "agent" ex_archive /\ honest ex_unzip (mkrun "agent" ex_net None) /\
  snd (tf_agent ex_unzip ex_load "agent" ([[7]]%nat, Some RuntimeError) new_disk) = Raise RuntimeError.
Proof.
  assert (Ha : archive_of "agent" ex_archive) by (repeat constructor; eexists; (split; [|reflexivity]); discriminate).
  split; [reflexivity|]. split; [exact Ha|]. split; [|reflexivity].
  split; [discriminate|]. intros entries E. injection E as <-. exact Ha.
Qed.

(** * The atom detector and the image aligner *)
Section Others.
Context {Byte : Type}.
Notation content := (list Byte).
Variable unzip : content -> res (list (name_path * content)).

(** the entries of an archive unpacked beside other models: what is in the
    directory of the model, and that the rest is as it was *)
Lemma mkdirs_exists p d : p <> [] -> d_dir (do_writes d (@mkdirs Byte p)) p = true.
Proof.
  intro Hp. unfold mkdirs, ancestors. destruct (length p) as [|n] eqn:E; [apply length_zero_iff_nil in E; contradiction|].
  rewrite seq_S, !map_app, do_writes_app. cbn [map do_writes fold_left do_write d_dir].
  replace (firstn (1 + n) p) with p by (symmetry; apply firstn_all2; lia). unfold do_writes. cbn. rewrite path_eqb_refl. reflexivity.
Qed.

(** The first call that gets an archive unpacks all of it. *)
Theorem detector_fresh : forall (d : disk) (net : transfer) (entries : list (name_path * content)),
  exists_path d detector_path = false -> snd net = None -> unzip (concat (fst net)) = Ok entries ->
  exists ws, detector_from_url unzip net d = (ws, Ok detector_path) /\
    unpacked_over (files_in d weights) entries (files_in (do_writes d ws) weights) /\
    exists_path (do_writes d ws) detector_path = true.
Proof.
  intros d net entries He Hs Hu. unfold detector_from_url. rewrite He, Hs, Hu. eexists. split; [reflexivity|].
  rewrite do_writes_app. change (removelast detector_path) with weights. split.
  - pose proof (extract_all_unpacked weights entries (do_writes d (mkdirs detector_path))) as H.
    intro p. destruct (H p) as [K | (K1 & K2)]; [left; exact K|right]. split; [assumption|]. rewrite K2.
    unfold files_in. rewrite mkdirs_files. reflexivity.
  - unfold exists_path. rewrite exists_mono; [reflexivity|]. apply mkdirs_exists. discriminate.
Qed.
(** A call that fails before leaves the directory of the model: all later calls
    succeed at once, without the network, and without any model. *)
Theorem detector_failed : forall (d : disk) (net : transfer) (ws : list write) (e : exn),
  detector_from_url unzip net d = (ws, Raise e) ->
  let d' := do_writes d ws in
  d_file d' = d_file d /\ forall net', detector_from_url unzip net' d' = ([], Ok detector_path).
Proof.
  intros d net ws e H. unfold detector_from_url in H. destruct (exists_path d detector_path) eqn:He; [discriminate|].
  assert (Hw : ws = mkdirs detector_path).
  { destruct (snd net); [injection H as <- _; reflexivity|]. destruct (unzip _); [discriminate| |discriminate].
    injection H as <- _. reflexivity. }
  subst ws. cbv zeta. split; [apply mkdirs_files|]. intro net'. unfold detector_from_url, exists_path.
  rewrite mkdirs_exists by discriminate. reflexivity.
Qed.
(** A call that is cut after the directory was made has the same effect. *)
Theorem detector_cut : forall (d : disk) (net : transfer) (n : nat),
  exists_path d detector_path = false -> (2 <= n)%nat ->
  let d' := cut n (fst (detector_from_url unzip net d)) d in
  forall net', detector_from_url unzip net' d' = ([], Ok detector_path).
Proof.
  intros d net n He Hn. cbv zeta. intro net'.
  assert (H : d_dir (cut n (fst (detector_from_url unzip net d)) d) detector_path = true).
  { unfold detector_from_url. rewrite He. unfold cut.
    assert (Hc : forall ws, d_dir (do_writes d (firstn n (mkdirs detector_path ++ ws))) detector_path = true).
    { intro ws. destruct n as [|[|n]]; try lia. cbn [mkdirs ancestors detector_path length seq map firstn app].
      unfold do_writes. cbn [fold_left]. apply exists_mono. cbn. reflexivity. }
    destruct (snd net); [rewrite <- (app_nil_r (mkdirs _)); apply Hc|].
    destruct (unzip _); cbn [fst]; [apply Hc| |]; rewrite <- (app_nil_r (mkdirs _)); apply Hc. }
  unfold detector_from_url at 1. unfold exists_path. rewrite H. reflexivity.
Qed.

(** The aligner unpacks if its directory is missing or it is told to reload:
    then every file of the archive is there, whatever happened before.  A file
    of an older model that is not in the archive stays. *)
Theorem aligner_unpacks : forall (d : disk) (reload : bool) (archive : content) (entries : list (name_path * content)),
  exists_path d aligner_path = false \/ reload = true -> unzip archive = Ok entries ->
  exists ws, aligner_from_path unzip (Some archive) reload d = (ws, Ok aligner_path) /\
    unpacked_over (files_in d weights) entries (files_in (do_writes d ws) weights) /\
    exists_path (do_writes d ws) aligner_path = true.
Proof.
  intros d reload archive entries H Hu. unfold aligner_from_path.
  replace (negb (exists_path d aligner_path) || reload)%bool with true.
  2:{ destruct H as [-> | ->]; [reflexivity|symmetry; apply orb_true_r]. }
  rewrite Hu. eexists. split; [reflexivity|].
  rewrite do_writes_app. change (removelast aligner_path) with weights. split.
  - pose proof (extract_all_unpacked weights entries (do_writes d (mkdirs aligner_path))) as K.
    intro p. destruct (K p) as [K' | (K1 & K2)]; [left; exact K'|right]. split; [assumption|]. rewrite K2.
    unfold files_in. rewrite mkdirs_files. reflexivity.
  - unfold exists_path. rewrite exists_mono; [reflexivity|]. apply mkdirs_exists. discriminate.
Qed.
(** Without reload it takes what is there; after a failed call that is an empty
    directory, and only reload helps. *)
Theorem aligner_kept : forall (d : disk) (archive : option content),
  exists_path d aligner_path = true -> aligner_from_path unzip archive false d = ([], Ok aligner_path).
Proof. intros d archive He. unfold aligner_from_path. rewrite He. reflexivity. Qed.
Theorem aligner_failed : forall (d : disk) (archive : option content) (reload : bool) (ws : list write) (e : exn),
  aligner_from_path unzip archive reload d = (ws, Raise e) ->
  let d' := do_writes d ws in
  d_file d' = d_file d /\ forall archive', aligner_from_path unzip archive' false d' = ([], Ok aligner_path).
Proof.
  intros d archive reload ws e H. unfold aligner_from_path in H. destruct (negb _ || _)%bool; [|discriminate].
  assert (Hw : ws = mkdirs aligner_path).
  { destruct archive; [|injection H as <- _; reflexivity]. destruct (unzip _); [discriminate| |discriminate].
    injection H as <- _. reflexivity. }
  subst ws. cbv zeta. split; [apply mkdirs_files|]. intro archive'. apply aligner_kept. unfold exists_path.
  rewrite mkdirs_exists by discriminate. reflexivity.
Qed.
End Others.
Print Assumptions detector_fresh.
Print Assumptions detector_failed.
Print Assumptions detector_cut.
Print Assumptions aligner_unpacks.
Print Assumptions aligner_kept.
Print Assumptions aligner_failed.

Example detector_nonvacuous :
  (exists ws, detector_from_url ex_unzip ex_net (@new_disk nat) = (ws, Ok detector_path)) /\
  (exists ws, detector_from_url ex_unzip ([[7]]%nat, Some RuntimeError) (@new_disk nat) = (ws, Raise RuntimeError)) /\
  (exists ws, aligner_from_path ex_unzip (Some [7; 8]%nat) false (@new_disk nat) = (ws, Ok aligner_path)) /\
  (exists ws, aligner_from_path ex_unzip None true (@new_disk nat) = (ws, Raise FileNotFoundError)).
Proof. repeat split; eexists; reflexivity. Qed.
