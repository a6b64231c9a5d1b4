(** Property C60: record files. *)
From Coq Require Import List Bool Lia Arith Ascii String.
From Verif Require Import Base.Prelude Model.MicroscopeUtils Model.Io Spec.Grids Spec.Protos Spec.Records Proofs.ProtoFacts.
Import ListNotations.
Local Open Scope string_scope.
Local Open Scope list_scope.

(** ** File names *)

Lemma rfind_none c l : (forall d, In d l -> d <> c) -> rfind c l = None.
Proof.
  induction l as [|d l IH]; cbn; intros K; auto. rewrite IH by auto.
  destruct (Ascii.eqb_spec d c); auto. exfalso; apply (K d); auto.
Qed.
Lemma rfind_app c l m i : rfind c m = Some i -> rfind c (l ++ m) = Some (List.length l + i)%nat.
Proof. intro Em. induction l as [|d l IH]; cbn; auto. rewrite IH. auto. Qed.
Lemma rfind_bound c l i : rfind c l = Some i -> (i < List.length l)%nat.
Proof.
  revert i; induction l as [|d l IH]; cbn; intros i K; [discriminate|].
  destruct (rfind c l) as [j|]; [|destruct (Ascii.eqb d c); [|discriminate]; injection K; lia].
  injection K; intros. specialize (IH j eq_refl). lia.
Qed.

Theorem record_file_names : forall p, is_tfrecords p = true <-> record_file p.
Proof.
  intro p. unfold is_tfrecords, record_file, path_suffix, path_name.
  split.
  - destruct (list_eq_dec ascii_dec _ _) as [Eq|]; [|discriminate]. intros _. revert Eq.
    destruct (path_components p) as [|c cs] using rev_ind; [cbn; discriminate|].
    rewrite last_last. destruct (rfind "." c) as [i|] eqn:Ei; [|discriminate].
    destruct ((0 <? i)%nat && (i <? List.length c - 1)%nat) eqn:B; [|discriminate].
    intro Eq. apply andb_true_iff in B. destruct B as [B1 B2]. apply Nat.ltb_lt in B1, B2.
    exists cs, (firstn i c). unfold tfrecords in Eq. rewrite <- Eq, firstn_skipn. split; auto.
    intro K. apply (f_equal (@List.length _)) in K. rewrite firstn_length in K. cbn in K. lia.
  - intros (d & stem & Eq & Ns). rewrite Eq, last_last.
    assert (Er : rfind "." (stem ++ list_ascii_of_string ".tfrecords") = Some (List.length stem + 0)%nat).
    { apply rfind_app. reflexivity. }
    rewrite Er, Nat.add_0_r, app_length.
    replace ((0 <? List.length stem)%nat) with true.
    2:{ symmetry; apply Nat.ltb_lt. destruct stem; [congruence|cbn; lia]. }
    replace ((List.length stem <? List.length stem + List.length (list_ascii_of_string ".tfrecords") - 1)%nat) with true.
    2:{ symmetry; apply Nat.ltb_lt. cbn. lia. }
    cbn [andb]. rewrite skipn_app, skipn_all, Nat.sub_diag. cbn [skipn app]. unfold tfrecords.
    destruct (list_eq_dec ascii_dec _ _); auto.
Qed.
Print Assumptions record_file_names.

Lemma split_slash_nonempty l : split_slash l <> [].
Proof. destruct l as [|c l]; cbn; [discriminate|]. destruct (Ascii.eqb c "/"); [discriminate|]. destruct (split_slash l); discriminate. Qed.
Lemma split_slash_plain m : (forall c, In c m -> c <> "/"%char) -> split_slash m = [m].
Proof.
  induction m as [|c m IH]; cbn; intros K; auto. destruct (Ascii.eqb_spec c "/"); [exfalso; apply (K c); auto|].
  rewrite IH by auto. reflexivity.
Qed.
Lemma split_slash_app l m : (forall c, In c m -> c <> "/"%char) ->
  exists ns n, split_slash l = ns ++ [n] /\ split_slash (l ++ m) = ns ++ [n ++ m].
Proof.
  intro K. induction l as [|c l IH].
  - exists [], []. split; auto. apply split_slash_plain; auto.
  - destruct IH as (ns & n & E1 & E2). cbn [app split_slash].
    destruct (Ascii.eqb c "/"). { exists ([] :: ns), n. rewrite E1, E2. auto. }
    rewrite E1, E2. destruct ns as [|n0 ns].
    + exists [], (c :: n). auto.
    + exists ((c :: n0) :: ns), n. auto.
Qed.
Lemma split_slash_last l ns n : split_slash l = ns ++ [n] ->
  (n = [] <-> l = [] \/ exists l', l = l' ++ ["/"%char]).
Proof.
  intro Es. destruct l as [|c l'] using rev_ind.
  - cbn in Es. destruct ns; [injection Es as <-|destruct ns; discriminate]. split; auto.
  - clear IHl'. destruct (Ascii.eqb_spec c "/") as [->|Nc].
    + assert (Ea : forall m, split_slash (m ++ ["/"%char]) = split_slash m ++ [[]]).
      { induction m as [|d m IH]; [reflexivity|]. cbn [app split_slash]. rewrite IH. destruct (Ascii.eqb d "/"); auto.
        destruct (split_slash m) eqn:Q; auto. exfalso; apply (split_slash_nonempty m); auto. }
      rewrite Ea in Es. apply app_inj_tail in Es. destruct Es as [_ <-]. split; eauto.
    + destruct (split_slash_app l' [c]) as (ns' & n' & E1 & E2). { intros d [<-|[]]; auto. }
      rewrite E2 in Es. apply app_inj_tail in Es. destruct Es as [_ <-].
      split; [intro K; destruct n'; discriminate|]. intros [K|(l2 & K)].
      * destruct l'; discriminate.
      * apply app_inj_tail in K. destruct K. congruence.
Qed.

(** as strings: ".tfrecords" must not start the file name *)
Theorem record_file_strings : forall s,
  record_file (path_of (s ++ ".tfrecords")%string) <->
  s <> ""%string /\ forall s', s <> (s' ++ "/")%string.
Proof.
  intro s. rewrite <- record_file_names. unfold path_of.
  assert (La : forall a b, list_ascii_of_string (a ++ b)%string = list_ascii_of_string a ++ list_ascii_of_string b).
  { intros a b; induction a; cbn; congruence. }
  rewrite La. set (l := list_ascii_of_string s).
  set (t := list_ascii_of_string ".tfrecords").
  assert (Kt : forall c, In c t -> c <> "/"%char).
  { intros c Hc. cbn in Hc. intros ->. repeat destruct Hc as [Hc|Hc]; try discriminate. destruct Hc. }
  destruct (split_slash_app l t Kt) as (ns & n & E1 & E2).
  rewrite E2, filter_app. cbn [filter].
  replace (real_component (n ++ t)) with true by (destruct n as [|a [|b n]]; reflexivity).
  rewrite record_file_names. unfold record_file. cbn [path_components].
  assert (Sl : l = [] <-> s = ""%string).
  { unfold l. split; [|intros ->; auto]. intro K. rewrite <- (string_of_list_ascii_of_string s), K. reflexivity. }
  assert (Sr : (exists l', l = l' ++ ["/"%char]) <-> exists s', s = (s' ++ "/")%string).
  { split.
    - intros (l' & K). exists (string_of_list_ascii l'). unfold l in K.
      rewrite <- (string_of_list_ascii_of_string s), K.
      clear. induction l' as [|c l' IH]; cbn; [reflexivity|]. f_equal; auto.
    - intros (s' & ->). exists (list_ascii_of_string s'). unfold l. rewrite La. reflexivity. }
  pose proof (split_slash_last _ _ _ E1) as En.
  split.
  - intros (d & stem & Eq & Ns). apply app_inj_tail in Eq. destruct Eq as [_ Eq].
    apply app_inv_tail in Eq. subst stem.
    split; [intro K; apply Ns, En; left; apply Sl; auto|].
    intros s' K. apply Ns, En. right. apply Sr. eauto.
  - intros [H1 H2]. exists (filter real_component ns), n. split; auto.
    intro K. apply En in K. destruct K as [K|K]; [apply H1, Sl; auto|].
    apply Sr in K. destruct K as (s' & K). apply (H2 s'); auto.
Qed.
Print Assumptions record_file_strings.

Example record_file_strings_nonvacuous :
  is_tfrecords (path_of "/data/run.1/x.tfrecords") = true /\ is_tfrecords (path_of "x.tfrecords/") = true /\
  is_tfrecords (path_of ".tfrecords") = false /\ is_tfrecords (path_of "x.tfrecord") = false /\
  is_tfrecords (path_of "x.tfrecords.gz") = false /\ is_tfrecords (path_of "") = false.
Proof. repeat split; vm_compute; reflexivity. Qed.

(** C60: the components of a path: what is between slashes, without empty ones and single dots *)
Theorem path_parts ns : ns <> [] -> (forall n s1 s2, In n ns -> n <> (s1 ++ "/" ++ s2)%string) ->
  path_components (path_of (String.concat "/" ns)) =
  map list_ascii_of_string (filter (fun n => negb (String.eqb n "" || String.eqb n ".")) ns) /\
  (path_absolute (path_of (String.concat "/" ns)) = true <-> exists ns', ns = ""%string :: ns' /\ ns' <> []).
Proof.
  intros N H.
  assert (La : forall a b, list_ascii_of_string (a ++ b)%string = list_ascii_of_string a ++ list_ascii_of_string b).
  { intros a b; induction a; cbn; congruence. }
  assert (Fr : forall n, In n ns -> ~ In "/"%char (list_ascii_of_string n)).
  { intros n Hn I. apply in_split in I. destruct I as (l1 & l2 & E).
    apply (H n (string_of_list_ascii l1) (string_of_list_ascii l2) Hn).
    rewrite <- (string_of_list_ascii_of_string n), E. clear. induction l1 as [|c l1 IH]; cbn; [reflexivity|]. f_equal. exact IH. }
  assert (Sp : forall a l, ~ In "/"%char a -> split_slash (a ++ "/"%char :: l) = a :: split_slash l).
  { induction a as [|c a IH]; intros l K; [reflexivity|]. cbn [app split_slash].
    assert (Ec : Ascii.eqb c "/" = false) by (apply Ascii.eqb_neq; intros ->; apply K; left; auto). rewrite Ec.
    rewrite IH by (intros I; apply K; right; auto). reflexivity. }
  assert (S1 : forall a, ~ In "/"%char a -> split_slash a = [a]).
  { induction a as [|c a IH]; intros K; [reflexivity|]. cbn [split_slash].
    assert (Ec : Ascii.eqb c "/" = false) by (apply Ascii.eqb_neq; intros ->; apply K; left; auto). rewrite Ec.
    rewrite IH by (intros I; apply K; right; auto). reflexivity. }
  assert (E : split_slash (list_ascii_of_string (String.concat "/" ns)) = map list_ascii_of_string ns).
  { clear H. revert Fr N. induction ns as [|n [|m ns] IH]; intros Fr N; [contradiction| |].
    - apply S1. apply Fr. left; auto.
    - change (String.concat "/" (n :: m :: ns)) with (n ++ "/" ++ String.concat "/" (m :: ns))%string. rewrite !La.
      change (list_ascii_of_string "/" ++ ?x) with ("/"%char :: x). cbn [list_ascii_of_string app].
      rewrite Sp by (apply Fr; left; auto). rewrite IH; [reflexivity| |discriminate]. intros k Hk. apply Fr. right; auto. }
  split.
  - unfold path_of. cbn [path_components]. rewrite E. clear. induction ns as [|n ns IH]; cbn [map filter]; [reflexivity|].
    replace (real_component (list_ascii_of_string n)) with (negb (String.eqb n "" || String.eqb n "."))
      by (destruct n as [|c [|c2 n]]; unfold real_component; cbn [list_ascii_of_string String.eqb orb]; [reflexivity| |];
          destruct (Ascii.eqb c "."); reflexivity).
    destruct (negb (String.eqb n "" || String.eqb n ".")); cbn [map]; [f_equal|]; exact IH.
  - unfold path_of. cbn [path_absolute]. destruct ns as [|n ns]; [contradiction|]. destruct n as [|c n].
    + destruct ns as [|m ns]; cbn; [split; [discriminate|intros (ns' & Q & K); injection Q as <-; contradiction]|].
      split; auto. intros _. eexists. split; [reflexivity|discriminate].
    + assert (Ec : c <> "/"%char) by (intros ->; apply (Fr (String "/" n)); [left; auto|left; auto]).
      split; [|intros (ns' & Q & _); discriminate]. destruct ns; cbn; intros Q; apply Ascii.eqb_eq in Q; contradiction.
Qed.
Print Assumptions path_parts.
Example path_parts_nonvacuous : path_of "data/./run//x.tfrecords" = path_of "data/run/x.tfrecords" /\
  path_absolute (path_of "/data") = true /\ path_of "data" <> path_of "data/..".
Proof. repeat split; discriminate. Qed.

(** ** Writing and reading *)

Section Records.
Context {B M T : Type}.
Variable to_proto : T -> res M.
Variable from_proto : M -> T.
Variable serialize : M -> B.
Variable parse : B -> res M.
Notation bytes_of := (bytes_of to_proto serialize).
Notation yields := (yields from_proto parse).

Lemma record_bytes_iff r b : record_bytes to_proto serialize r = Ok b <-> bytes_of r b.
Proof.
  destruct r as [b'|t]; cbn. { split; congruence. }
  destruct (to_proto t) as [m|e|]; cbn; split.
  - intro K; injection K as <-; eauto.
  - intros (m' & K & ->). congruence.
  - discriminate.
  - intros (m' & K & _). discriminate.
  - discriminate.
  - intros (m' & K & _). discriminate.
Qed.

(** everything written, in order; other files are not touched *)
Theorem write_records_ok : forall fs p rs bs, record_file p -> Forall2 bytes_of rs bs ->
  exists fs', write_records to_proto serialize fs p rs = (Ok tt, fs') /\ fs' p = Some bs /\
              forall q, q <> p -> fs' q = fs q.
Proof.
  intros fs p rs bs Hp K. apply record_file_names in Hp. unfold write_records. rewrite Hp.
  assert (El : write_loop to_proto serialize rs = (Ok tt, bs)).
  { induction K as [|r b rs bs Kb _ IH]; cbn [write_loop]; auto.
    apply record_bytes_iff in Kb. rewrite Kb, IH. reflexivity. }
  rewrite El. exists (fs_write fs p bs). split; auto. unfold fs_write.
  split; [destruct (path_eq_dec p p); congruence|]. intros q Nq. destruct (path_eq_dec q p); congruence.
Qed.

(** it raises exactly when a record has no bytes, and then the file has the
    records before the first such record *)
Theorem write_records_raises : forall fs p rs e, record_file p ->
  (exists fs', write_records to_proto serialize fs p rs = (Raise e, fs')) <->
  (exists rs1 t rs2 bs, rs = rs1 ++ ModelRecord t :: rs2 /\ Forall2 bytes_of rs1 bs /\ to_proto t = Raise e /\
     forall fs', write_records to_proto serialize fs p rs = (Raise e, fs') ->
       fs' p = Some bs /\ forall q, q <> p -> fs' q = fs q).
Proof.
  intros fs p rs e Hp. apply record_file_names in Hp. unfold write_records. rewrite Hp.
  assert (El : forall rs bs, write_loop to_proto serialize rs = (Raise e, bs) <->
     exists rs1 t rs2, rs = rs1 ++ ModelRecord t :: rs2 /\ Forall2 bytes_of rs1 bs /\ to_proto t = Raise e).
  { clear. induction rs as [|r rs IH]; intro bs; cbn [write_loop].
    - split; [discriminate|]. intros (rs1 & t & rs2 & K & _). destruct rs1; discriminate.
    - destruct (record_bytes to_proto serialize r) as [b|e'|] eqn:Er.
      + destruct (write_loop to_proto serialize rs) as [x bs'] eqn:Ew. split.
        * intro K. injection K as -> <-. destruct (proj1 (IH bs') eq_refl) as (rs1 & t & rs2 & -> & F2 & Et).
          exists (r :: rs1), t, rs2. repeat split; auto. constructor; auto. apply record_bytes_iff; auto.
        * intros (rs1 & t & rs2 & K & F2 & Et). destruct rs1 as [|r1 rs1].
          { injection K as -> _. cbn in Er. rewrite Et in Er. discriminate. }
          injection K as -> ->. inversion F2; subst.
          match goal with [ Kb : bytes_of r1 ?y |- _ ] => apply record_bytes_iff in Kb; rewrite Kb in Er; injection Er as -> end.
          match goal with [ Kf : Forall2 bytes_of rs1 ?l |- _ ] =>
            assert (Q : (x, bs') = (Raise e, l)) by (apply IH; eauto 8); injection Q as -> -> end. reflexivity.
      + split.
        * intro K. injection K as -> <-. destruct r as [b|t]; [discriminate|].
          exists [], t, rs. repeat split; auto. cbn in Er. destruct (to_proto t); cbn in Er; congruence.
        * intros (rs1 & t & rs2 & K & F2 & Et). destruct rs1 as [|r1 rs1].
          { injection K as -> _. cbn in Er. rewrite Et in Er. cbn in Er. inversion F2. congruence. }
          injection K as -> ->. inversion F2; subst.
          match goal with [ Kb : bytes_of r1 ?y |- _ ] => apply record_bytes_iff in Kb; congruence end.
      + split; [discriminate|].
        intros (rs1 & t & rs2 & K & F2 & Et). destruct rs1 as [|r1 rs1].
        { injection K as -> _. cbn in Er. rewrite Et in Er. discriminate. }
        injection K as -> ->. inversion F2; subst.
        match goal with [ Kb : bytes_of r1 ?y |- _ ] => apply record_bytes_iff in Kb; congruence end. }
  destruct (write_loop to_proto serialize rs) as [x bs] eqn:Ew. split.
  - intros (fs' & K). injection K as -> _. destruct (proj1 (El rs bs) Ew) as (rs1 & t & rs2 & E1 & F2 & Et).
    exists rs1, t, rs2, bs. split; [auto|]. split; [auto|]. split; [auto|].
    intros fs'' K. injection K as <-. unfold fs_write. split.
    + destruct (path_eq_dec p p); congruence.
    + intros q Nq. destruct (path_eq_dec q p); congruence.
  - intros (rs1 & t & rs2 & bs' & E1 & F2 & Et & _).
    assert (Q : (x, bs) = (Raise e, bs')). { rewrite <- Ew. apply El. eauto 8. }
    injection Q as -> ->. eauto.
Qed.

(** any other file name: ValueError at the call, nothing is written *)
Theorem write_unknown_extension : forall fs p rs, ~ record_file p ->
  write_records to_proto serialize fs p rs = (Raise ValueError, fs).
Proof.
  intros fs p rs N. unfold write_records. destruct (is_tfrecords p) eqn:Q; auto.
  apply record_file_names in Q. contradiction.
Qed.

(** reading: ValueError at the first next() only, then the iteration is over *)
Theorem read_unknown_extension : forall fs p typed, ~ record_file p ->
  exists g, read_next from_proto parse fs (read_records p typed) = (Raise ValueError, g) /\ yields fs g [].
Proof.
  intros fs p typed N. unfold read_next. cbn. destruct (is_tfrecords p) eqn:Q.
  - apply record_file_names in Q. contradiction.
  - eexists. split; [reflexivity|]. eapply yields_nil. reflexivity.
Qed.

Theorem read_missing_file : forall fs p typed, record_file p -> fs p = None ->
  exists g, read_next from_proto parse fs (read_records p typed) = (Raise FileNotFoundError, g) /\ yields fs g [].
Proof.
  intros fs p typed H N. apply record_file_names in H. unfold read_next. cbn. rewrite H, N.
  eexists. split; [reflexivity|]. eapply yields_nil. reflexivity.
Qed.

Lemma reading_raw fs p bs : yields fs (mkgenerator p false (Reading bs)) (map RawRecord bs).
Proof.
  induction bs as [|b bs IH].
  - eapply yields_nil. reflexivity.
  - cbn. eapply yields_cons; [reflexivity|exact IH].
Qed.
Lemma reading_typed fs p bs ts : Forall2 (fun b t => exists m, parse b = Ok m /\ t = from_proto m) bs ts ->
  yields fs (mkgenerator p true (Reading bs)) (map ModelRecord ts).
Proof.
  induction 1 as [|b t bs ts (m & Ep & ->) _ IH].
  - eapply yields_nil. reflexivity.
  - cbn. eapply yields_cons; [|exact IH]. unfold read_next; cbn. unfold from_proto_string, fmap_res. rewrite Ep. reflexivity.
Qed.

(** without a record type: the records as they are in the file *)
Theorem read_raw : forall fs p bs, record_file p -> fs p = Some bs ->
  yields fs (read_records p false) (map RawRecord bs).
Proof.
  intros fs p bs H Eq. apply record_file_names in H. destruct bs as [|b bs].
  - eapply yields_nil. unfold read_next; cbn. rewrite H, Eq. reflexivity.
  - cbn. eapply yields_cons; [unfold read_next; cbn; rewrite H, Eq; reflexivity|apply reading_raw].
Qed.

(** writing models and reading them back with their type *)
Theorem write_read_round_trip : forall fs p ts ms, wire_format serialize parse -> record_file p ->
  Forall2 (fun t m => to_proto t = Ok m) ts ms ->
  exists fs', write_records to_proto serialize fs p (map ModelRecord ts) = (Ok tt, fs') /\
              yields fs' (read_records p true) (map ModelRecord (map from_proto ms)).
Proof.
  intros fs p ts ms W H K.
  assert (Kb : Forall2 bytes_of (map ModelRecord ts) (map serialize ms)).
  { clear -K. induction K; cbn; constructor; eauto. cbn. eauto. }
  destruct (write_records_ok fs p _ _ H Kb) as (fs' & Ew & Ep & _). exists fs'. split; auto.
  apply record_file_names in H.
  assert (Kr : Forall2 (fun b t => exists m, parse b = Ok m /\ t = from_proto m) (map serialize ms) (map from_proto ms)).
  { clear -W. induction ms; cbn; constructor; eauto. }
  destruct ms as [|m ms].
  - cbn. eapply yields_nil. unfold read_next; cbn. rewrite H, Ep. reflexivity.
  - cbn in *. inversion Kr; subst. eapply yields_cons; [|apply reading_typed; eassumption].
    unfold read_next; cbn. rewrite H, Ep. cbn. unfold from_proto_string, fmap_res. rewrite W. reflexivity.
Qed.

(** a record that cannot be parsed ends the iteration with the error *)
Theorem read_unparsable : forall fs p b bs e, record_file p -> fs p = Some (b :: bs) -> parse b = Raise e ->
  exists g, read_next from_proto parse fs (read_records p true) = (Raise e, g) /\ yields fs g [].
Proof.
  intros fs p b bs e H Ep K. apply record_file_names in H. unfold read_next. cbn. rewrite H, Ep. cbn.
  unfold from_proto_string, fmap_res. rewrite K. cbn. eexists. split; [reflexivity|]. eapply yields_nil. reflexivity.
Qed.
End Records.
Print Assumptions write_records_ok.
Print Assumptions write_records_raises.
Print Assumptions write_unknown_extension.
Print Assumptions read_unknown_extension.
Print Assumptions read_missing_file.
Print Assumptions read_raw.
Print Assumptions write_read_round_trip.
Print Assumptions read_unparsable.

(** trajectories: what comes back is what the protocol buffers keep *)
Theorem trajectories_file_round_trip : forall B (serialize : ptrajectory -> B) parse fs p ts,
  wire_format serialize parse -> record_file p ->
  (forall t o, In t ts -> In o t -> wf_grid (o_grid o)) ->
  exists fs', write_records trajectory_to_proto serialize fs p (map ModelRecord ts) = (Ok tt, fs') /\
    yields trajectory_from_proto parse fs' (read_records p true) (map ModelRecord (map (map stored_observation) ts)).
Proof.
  intros B serialize parse fs p ts W H K.
  assert (Q : exists ms, Forall2 (fun t m => trajectory_to_proto t = Ok m) ts ms /\
                         map trajectory_from_proto ms = map (map stored_observation) ts).
  { clear -K. induction ts as [|t ts IH].
    - exists []. split; auto.
    - destruct IH as (ms & F2 & Em). { intros; eapply K; eauto. right; auto. }
      destruct (trajectory_round_trip t) as (m & E1 & E2). { intros; eapply K; [left; reflexivity|auto]. }
      exists (m :: ms). split; [constructor; auto|]. cbn [map]. rewrite E2, Em. reflexivity. }
  destruct Q as (ms & F2 & Em). rewrite <- Em.
  exact (write_read_round_trip trajectory_to_proto trajectory_from_proto serialize parse fs p ts ms W H F2).
Qed.
Print Assumptions trajectories_file_round_trip.

(** a wire format exists, and two trajectories, one of them empty *)
Example trajectories_file_nonvacuous :
  let p := path_of "logs/trajectories.tfrecords" in
  let o := mkobs (mkgrid [mkpt 1 2] [14%Z]) (mkfov (mkpt 0 0) (mkpt 20 20)) [] 2000000%Z None None in
  wire_format (fun m : ptrajectory => m) (fun m => Ok m) /\ record_file p /\
  forall t o', In t [[o]; []] -> In o' t -> wf_grid (o_grid o').
Proof.
  cbn zeta. split; [intro; reflexivity|]. split.
  - apply record_file_names. vm_compute. reflexivity.
  - intros t o' [<-|[<-|[]]] K; [|destruct K]. destruct K as [<-|[]]. reflexivity.
Qed.
