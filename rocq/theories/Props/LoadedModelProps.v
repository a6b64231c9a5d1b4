(** C126: when the networks of detectors and aligners are read from disk. *)
From Coq Require Import List Bool Arith Lia String.
From Verif Require Import Base.Prelude Model.Downloads Spec.Downloads Props.DownloadProps Model.LoadedModels Spec.LoadedModels.
Import ListNotations.
Local Open Scope list_scope.

Section Facts.
Context {Byte Net : Type}.
Variable unzip : list Byte -> res (list (name_path * list Byte)).
Variable load : (name_path -> option (list Byte)) -> res Net.
Notation happen := (happen unzip load).
Notation after := (after unzip load).
Notation comes := (comes unzip load).

Notation answered := (answered unzip load).

Lemma after_app w h h' : after w (h ++ h') = after (after w h) h'.
Proof. unfold LoadedModels.after. apply fold_left_app. Qed.
Lemma put_same i (o : object Net) l : i < length l -> nth_error (put_object i o l) i = Some o.
Proof. revert i. induction l as [|x l IH]; intros [|i] H; cbn in *; try lia; auto. apply IH. lia. Qed.
Lemma put_other i j (o : object Net) l : i <> j -> nth_error (put_object i o l) j = nth_error l j.
Proof. revert i j. induction l as [|x l IH]; intros [|i] [|j] H; cbn; try congruence; auto. Qed.
(** the object of an index, in one event *)
Lemma happen_object w e i o : nth_error (w_objects w) i = Some o ->
  nth_error (w_objects (snd (happen w e))) i = Some (match e with Use j => if j =? i then snd (model_of load o (w_disk w)) else o | _ => o end).
Proof.
  intros E. assert (M : forall run, nth_error (w_objects (snd (make w run))) i = Some o).
  { intros [ws [p|x|]]; unfold make; cbn; auto. rewrite nth_error_app1; auto. apply nth_error_Some. congruence. }
  destruct e as [net|a r|j|ws]; cbn; auto.
  destruct (nth_error (w_objects w) j) as [o'|] eqn:Ej.
  - destruct (model_of load o' (w_disk w)) as [r o''] eqn:Em. cbn. destruct (Nat.eqb_spec j i) as [->|N].
    + rewrite E in Ej. injection Ej as <-. rewrite Em. cbn. apply put_same. apply nth_error_Some. congruence.
    + rewrite put_other; auto.
  - cbn. destruct (Nat.eqb_spec j i) as [->|N]; [congruence|auto].
Qed.
Lemma happen_kept w e i p n : nth_error (w_objects w) i = Some (mkobject p (Some n)) ->
  nth_error (w_objects (snd (happen w e))) i = Some (mkobject p (Some n)).
Proof. intros E. rewrite (happen_object _ e _ _ E). destruct e; auto. destruct Nat.eqb; auto. Qed.
Lemma after_kept h w i p n : nth_error (w_objects w) i = Some (mkobject p (Some n)) ->
  nth_error (w_objects (after w h)) i = Some (mkobject p (Some n)).
Proof.
  revert w. induction h as [|e h IH]; intros w E; [exact E|].
  change (after w (e :: h)) with (after (snd (happen w e)) h). apply IH. apply happen_kept; auto.
Qed.
Lemma comes_use w h i o : nth_error (w_objects (after w h)) i = Some o ->
  comes w h (Use i) = Answer (fst (model_of load o (w_disk (after w h)))).
Proof. intros E. unfold LoadedModels.comes. cbn. rewrite E. destruct model_of; reflexivity. Qed.

(** ** A model is read once: what an object once had it has for ever, whatever happens to the files *)
Theorem model_read_once (w : world Byte Net) (h : list (event Byte)) i n :
  answered w h i n -> comes w h (Use i) = Answer (Ok n).
Proof.
  intros (h1 & h2 & -> & A).
  assert (exists o, nth_error (w_objects (after w h1)) i = Some o) as [o E].
  { unfold LoadedModels.comes in A. cbn in A. destruct (nth_error (w_objects (after w h1)) i); [eauto|discriminate]. }
  rewrite (comes_use _ _ _ _ E) in A. injection A as A.
  assert (K : nth_error (w_objects (after w (h1 ++ Use i :: h2))) i = Some (mkobject (ob_path o) (Some n))).
  { rewrite after_app. change (after (after w h1) (Use i :: h2)) with (after (snd (happen (after w h1) (Use i))) h2).
    apply after_kept. rewrite (happen_object _ _ _ _ E). rewrite Nat.eqb_refl. f_equal.
    destruct o as [p [m|]]; unfold model_of in *; cbn in *; [congruence|]. rewrite A. reflexivity. }
  rewrite (comes_use _ _ _ _ K). reflexivity.
Qed.

(** ** Until then every use reads the files as they are then; no exception is kept *)
Lemma fresh_until h w i p : nth_error (w_objects w) i = Some (mkobject p None) ->
  (forall n, ~ answered w h i n) -> nth_error (w_objects (after w h)) i = Some (mkobject p None).
Proof.
  revert w. induction h as [|e h IH]; intros w E A; [exact E|].
  change (after w (e :: h)) with (after (snd (happen w e)) h). apply IH.
  - rewrite (happen_object _ _ _ _ E). destruct e as [net|a r|j|ws]; auto. destruct (Nat.eqb_spec j i) as [->|N]; auto.
    unfold model_of. cbn. destruct (load (files_in (w_disk w) p)) as [n|x|] eqn:L; auto. exfalso. apply (A n). exists [], h. split; [reflexivity|].
    unfold LoadedModels.comes. cbn. rewrite E. unfold model_of. cbn. rewrite L. reflexivity.
  - intros n (h1 & h2 & -> & B). apply (A n). exists (e :: h1), h2. split; [reflexivity|exact B].
Qed.
Theorem model_read_late (w : world Byte Net) (h : list (event Byte)) i p :
  nth_error (w_objects w) i = Some (mkobject p None) -> (forall n, ~ answered w h i n) ->
  comes w h (Use i) = Answer (load (files_in (w_disk (after w h)) p)).
Proof. intros E A. rewrite (comes_use _ _ _ _ (fresh_until _ _ _ _ E A)). reflexivity. Qed.

(** ** A new object has read nothing; making it tells nothing about its model *)
Theorem new_object (w : world Byte Net) e w' k : happen w e = (Made (Ok k), w') ->
  k = length (w_objects w) /\
  nth_error (w_objects w') k = Some (mkobject (match e with FromUrl _ => detector_path | _ => aligner_path end) None) /\
  length (w_objects w') = S k /\ forall i, i < k -> nth_error (w_objects w') i = nth_error (w_objects w) i.
Proof.
  assert (M : forall run p, (forall q, snd run = Ok q -> q = p) -> make w run = (Made (Ok k), w') ->
    k = length (w_objects w) /\ nth_error (w_objects w') k = Some (mkobject p None) /\ length (w_objects w') = S k /\
    forall i, i < k -> nth_error (w_objects w') i = nth_error (w_objects w) i).
  { intros [ws [q|x|]] p Hp Hm; unfold make in Hm; cbn in Hm; try discriminate. injection Hm as <- <-. rewrite (Hp q eq_refl). cbn.
    rewrite app_length. cbn. repeat split; [|lia|].
    - rewrite nth_error_app2, Nat.sub_diag by lia. reflexivity.
    - intros i Hi. apply nth_error_app1. exact Hi. }
  destruct e as [net|a r|j|ws]; cbn; intros H.
  - apply (M _ detector_path) in H; auto. intros q. unfold detector_from_url. destruct exists_path; cbn; [congruence|].
    destruct (snd net); cbn; [discriminate|]. destruct unzip; cbn; congruence.
  - apply (M _ aligner_path) in H; auto. intros q. unfold aligner_from_path. destruct (_ || _); cbn; [|congruence].
    destruct a; cbn; [|discriminate]. destruct unzip; cbn; congruence.
  - exfalso. destruct (nth_error (w_objects w) j); [|discriminate]. destruct model_of; discriminate.
  - discriminate.
Qed.

(** ** Reading a model changes no file and no other object *)
Theorem use_reads (w : world Byte Net) i :
  let w' := snd (happen w (Use i)) in
  w_disk w' = w_disk w /\ length (w_objects w') = length (w_objects w) /\
  (forall j, j <> i -> nth_error (w_objects w') j = nth_error (w_objects w) j).
Proof.
  cbn. destruct (nth_error (w_objects w) i) as [o|] eqn:E; [|auto]. destruct (model_of load o (w_disk w)) as [r o']. cbn.
  split; [reflexivity|]. split.
  - clear E. generalize (w_objects w) as l, i. induction l as [|x l IH]; intros [|j]; cbn; auto.
  - intros j N. apply put_other. auto.
Qed.

(** ** Reloading: an aligner that has its model keeps it when the files are replaced by those of another archive; a new one
    gets those, and so does an old one that was not used yet *)
Theorem reload_model (w : world Byte Net) (h : list (event Byte)) archive entries i p n :
  unzip archive = Ok entries -> answered w h i n -> nth_error (w_objects w) p = Some (mkobject aligner_path None) -> (forall m, ~ answered w h p m) ->
  let h' := h ++ [FromPath (Some archive) true] in
  let k := length (w_objects (after w h)) in
  let d := w_disk (after w h') in
  comes w h' (Use i) = Answer (Ok n) /\
  comes w h' (Use k) = Answer (load (files_in d aligner_path)) /\
  comes w h' (Use p) = Answer (load (files_in d aligner_path)) /\
  unpacked_over (files_in (w_disk (after w h)) weights) entries (files_in d weights).
Proof.
  intros U A P N h' k d. subst h'.
  destruct (aligner_unpacks unzip (w_disk (after w h)) true archive entries (or_intror eq_refl) U) as (ws & Ew & Un & _).
  assert (Eh : after w (h ++ [FromPath (Some archive) true]) =
    mkworld (do_writes (w_disk (after w h)) ws) (w_objects (after w h) ++ [mkobject aligner_path None])).
  { rewrite after_app. change (after (after w h) [FromPath (Some archive) true]) with (snd (happen (after w h) (FromPath (Some archive) true))).
    cbn [LoadedModels.happen]. rewrite Ew. reflexivity. }
  split; [|split; [|split]].
  - apply model_read_once. destruct A as (h1 & h2 & -> & A). exists h1, (h2 ++ [FromPath (Some archive) true]). split; [rewrite <- app_assoc; reflexivity|exact A].
  - assert (E : nth_error (w_objects (after w (h ++ [FromPath (Some archive) true]))) k = Some (mkobject aligner_path None)).
    { rewrite Eh. cbn. unfold k. rewrite nth_error_app2, Nat.sub_diag by lia. reflexivity. }
    rewrite (comes_use _ _ _ _ E). reflexivity.
  - apply model_read_late; [exact P|]. intros m (h1 & h2 & Eq & B).
    destruct h2 as [|e h2 _] using rev_ind.
    + apply app_inj_tail in Eq. destruct Eq as [_ Eq]. discriminate.
    + rewrite app_comm_cons, app_assoc in Eq. apply app_inj_tail in Eq. destruct Eq as [-> _]. apply (N m). exists h1, h2. auto.
  - unfold d. rewrite Eh. exact Un.
Qed.

(** ** After a download that was cut or failed: making a detector succeeds ever after, without another download, and every
    use of it reads what the cut download left *)
Theorem cut_detector (w : world Byte Net) (net : transfer) n (h : list (event Byte)) nets :
  exists_path (w_disk w) detector_path = false -> 2 <= n ->
  let w1 := mkworld (cut n (fst (detector_from_url unzip net (w_disk w))) (w_disk w)) [] in
  Forall (fun e => match e with FromUrl _ | Use _ => True | _ => False end) h ->
  let k := length (w_objects (after w1 h)) in
  comes w1 h (FromUrl nets) = Made (Ok k) /\
  comes w1 (h ++ [FromUrl nets]) (Use k) = Answer (load (files_in (w_disk w1) detector_path)).
Proof.
  intros N Hn w1 F k.
  assert (K : forall h, Forall (fun e : event Byte => match e with FromUrl _ | Use _ => True | _ => False end) h -> w_disk (after w1 h) = w_disk w1).
  { clear - N Hn. intros h. induction h as [|e h IH] using rev_ind; intros F; [reflexivity|]. apply Forall_app in F. destruct F as [F Fe]. inversion Fe; subst.
    rewrite after_app. change (after (after w1 h) [e]) with (snd (happen (after w1 h) e)). specialize (IH F). destruct e as [net'|a r|j|ws]; try contradiction.
    - cbn. rewrite IH. unfold w1 at 1. cbn [w_disk]. rewrite (detector_cut unzip (w_disk w) net n N Hn). unfold make. cbn. exact IH.
    - pose proof (use_reads (after w1 h) j) as (D & _). cbn in D. cbn. rewrite D. exact IH. }
  assert (E : happen (after w1 h) (FromUrl nets) = (Made (Ok k), mkworld (w_disk (after w1 h)) (w_objects (after w1 h) ++ [mkobject detector_path None]))).
  { cbn. rewrite (K h F) at 1. unfold w1 at 1. cbn [w_disk]. rewrite (detector_cut unzip (w_disk w) net n N Hn). reflexivity. }
  split.
  - unfold LoadedModels.comes. rewrite E. reflexivity.
  - assert (E' : after w1 (h ++ [FromUrl nets]) = mkworld (w_disk (after w1 h)) (w_objects (after w1 h) ++ [mkobject detector_path None])).
    { rewrite after_app. change (after (after w1 h) [FromUrl nets]) with (snd (happen (after w1 h) (FromUrl nets))). rewrite E. reflexivity. }
    assert (Ek : nth_error (w_objects (after w1 (h ++ [FromUrl nets]))) k = Some (mkobject detector_path None)).
    { rewrite E'. cbn. unfold k. rewrite nth_error_app2, Nat.sub_diag by lia. reflexivity. }
    rewrite (comes_use _ _ _ _ Ek). rewrite E'. cbn. rewrite (K h F). reflexivity.
Qed.
End Facts.
Print Assumptions model_read_once.
Print Assumptions model_read_late.
Print Assumptions new_object.
Print Assumptions use_reads.
Print Assumptions reload_model.
Print Assumptions cut_detector.

(** An archive is a single file of the model, with the number in the archive.
    An aligner is made and used, another is made; then the files are replaced:
    the first keeps its model, the second and a third have the new one.  A
    detector whose download was cut says so at every use. *)
Definition small_unzip (c : list nat) : res (list (name_path * list nat)) :=
  match c with
  | [] => Raise ValueError
  | x :: _ => Ok [(["image-alignment-model"; "weights"]%string, [x]); (["atom-detection-model"; "weights"]%string, [x])]
  end.
Definition small_load (files : name_path -> option (list nat)) : res (list nat) :=
  match files ["weights"%string] with Some c => Ok c | None => Raise FileNotFoundError end.
Example loaded_models_nonvacuous :
  let w := mkworld (@new_disk nat) (@nil (object (list nat))) in
  let h := [FromPath (Some [1]) false; Use 0; FromPath (Some [5]) false] in
  let h' := h ++ [FromPath (Some [2]) true] in
  map (comes small_unzip small_load w h) [Use 0; Use 1; Use 2] = [Answer (Ok [1]); Answer (Ok [1]); Silent] /\
  map (comes small_unzip small_load w h') [Use 0; Use 1; Use 2] = [Answer (Ok [1]); Answer (Ok [2]); Answer (Ok [2])] /\
  answered small_unzip small_load w h 0 [1] /\ (forall n, ~ answered small_unzip small_load w h 1 n) /\
  (let failed := [FromUrl ([[3]], Some RuntimeError)] in
   comes small_unzip small_load w [] (FromUrl ([[3]], Some RuntimeError)) = Made (Raise RuntimeError) /\
   comes small_unzip small_load w failed (FromUrl ([[3]], None)) = Made (Ok 0) /\
   comes small_unzip small_load w (failed ++ [FromUrl ([[3]], None); Use 0; Use 0]) (Use 0) = Answer (Raise FileNotFoundError)).
Proof.
  repeat split; try reflexivity.
  - exists [FromPath (Some [1]) false], [FromPath (Some [5]) false]. split; reflexivity.
  - intros n (h1 & h2 & E & _). destruct h1 as [|? [|? [|? [|? h1]]]]; discriminate.
Qed.
