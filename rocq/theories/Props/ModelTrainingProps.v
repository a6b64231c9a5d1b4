(** Training that may be killed and resumed, and the packaging of its result. *)
From Coq Require Import List Bool String Arith Lia Reals Lra.
From Verif Require Import Base.Prelude Model.Downloads Model.ModelTraining Spec.Downloads Spec.ModelTraining Props.DownloadProps.
Import ListNotations.
Local Open Scope list_scope.
Local Open Scope nat_scope.

Section Stores.
Context {State Saved Metric : Type}.
Variables (fresh : State) (epoch : nat -> State -> State) (measure : nat -> State -> Metric).
Variables (pack : State -> Saved) (unpack : State -> Saved -> State) (epochs : nat).
Notation ckpt := (@checkpoint Saved Metric).
Notation stor := (@store Saved Metric).
Implicit Types s : stor.

(** the checkpoints are those of the steps 0, 1, ... *)
Definition consecutive s : Prop := map ck_step s = seq 0 (length s).

Lemma latest_step_app s c : latest_step (s ++ [c]) = Some (match latest_step s with None => ck_step c | Some n => Nat.max n (ck_step c) end).
Proof.
  induction s as [|a s IH]; cbn; [reflexivity|]. rewrite IH. destruct (latest_step s); f_equal; lia.
Qed.
Lemma consecutive_app s c : consecutive (s ++ [c]) -> consecutive s /\ ck_step c = length s.
Proof.
  unfold consecutive. rewrite map_app, app_length, seq_app. cbn. intro H. apply app_inj_tail in H. assumption.
Qed.
Lemma consecutive_latest s : consecutive s -> latest_step s = match length s with 0 => None | S n => Some n end.
Proof.
  induction s as [|c s IH] using rev_ind; intro H; [reflexivity|].
  apply consecutive_app in H. destruct H as [H Hc]. rewrite latest_step_app, (IH H), app_length, Hc. cbn.
  rewrite Nat.add_1_r. destruct (length s); f_equal. lia.
Qed.
Lemma consecutive_snoc s c : consecutive s -> ck_step c = length s -> consecutive (s ++ [c]).
Proof. unfold consecutive. intros H Hc. rewrite map_app, app_length, seq_app, H, <- Hc. reflexivity. Qed.
Lemma save_next s c : consecutive s -> ck_step c = length s -> save_checkpoint s c = s ++ [c].
Proof.
  intros H Hc. unfold save_checkpoint. rewrite consecutive_latest by assumption. destruct (length s) eqn:E; [reflexivity|].
  destruct (Nat.leb_spec (ck_step c) n); [lia|reflexivity].
Qed.
Lemma save_old s c : consecutive s -> ck_step c < length s -> save_checkpoint s c = s.
Proof.
  intros H Hc. unfold save_checkpoint. rewrite consecutive_latest by assumption. destruct (length s) eqn:E; [lia|].
  destruct (Nat.leb_spec (ck_step c) n); [reflexivity|lia].
Qed.
Lemma restore_nth s n : consecutive s -> restore_step s n = nth_error s n.
Proof.
  induction s as [|c s IH] using rev_ind; intro H; [destruct n; reflexivity|].
  apply consecutive_app in H. destruct H as [H Hc]. specialize (IH H). unfold restore_step in *.
  assert (Hf : forall f (l l' : list ckpt), find f (l ++ l') = match find f l with Some x => Some x | None => find f l' end).
  { intros f l l'. induction l as [|x l IHl]; cbn; [reflexivity|]. destruct (f x); [reflexivity|exact IHl]. }
  rewrite Hf, IH. destruct (Nat.lt_trichotomy n (length s)) as [Hn | [Hn | Hn]].
  - rewrite nth_error_app1 by assumption. destruct (nth_error s n) eqn:E; [reflexivity|]. apply nth_error_None in E. lia.
  - subst n. rewrite (proj2 (nth_error_None s (length s))), nth_error_app2, Nat.sub_diag by lia. cbn. rewrite Hc, Nat.eqb_refl. reflexivity.
  - rewrite (proj2 (nth_error_None s n)) by lia. cbn. rewrite Hc. destruct (Nat.eqb_spec (length s) n); [lia|].
    symmetry. apply nth_error_None. rewrite app_length. cbn. lia.
Qed.
Lemma save_extends s c : exists t, save_checkpoint s c = s ++ t.
Proof. unfold save_checkpoint. destruct (latest_step s) as [l|]; [destruct (ck_step c <=? l)|]; eauto. exists []. symmetry. apply app_nil_r. Qed.

(** the checkpoints that [n] epochs write *)
Fixpoint written (n i e : nat) (st : State) : stor :=
  match n with
  | 0 => []
  | S n' => let st' := epoch i st in mkcheckpoint e (pack st') (Some (measure i st')) :: written n' (S i) (S e) st'
  end.
(** [n] epochs from the [i]-th of a run *)
Fixpoint epochs_from (n i : nat) (st : State) : State :=
  match n with 0 => st | S n' => epochs_from n' (S i) (epoch i st) end.
Lemma epochs_from_snoc n i st : epochs_from (S n) i st = epoch (i + n) (epochs_from n i st).
Proof.
  revert i st. induction n as [|n IH]; intros i st; [cbn; rewrite Nat.add_0_r; reflexivity|].
  change (epochs_from (S (S n)) i st) with (epochs_from (S n) (S i) (epoch i st)). rewrite IH. cbn [epochs_from]. f_equal. lia.
Qed.
Lemma epochs_from_continued n st : epochs_from n 0 st = continued epoch n st.
Proof. induction n as [|n IH]; [reflexivity|]. rewrite epochs_from_snoc, IH. reflexivity. Qed.
Lemma written_length n i e st : length (written n i e st) = n.
Proof. revert i e st; induction n as [|n IH]; intros; cbn; [reflexivity|]. f_equal. apply IH. Qed.
Lemma written_steps n i e st : map ck_step (written n i e st) = seq e n.
Proof. revert i e st; induction n as [|n IH]; intros; cbn; [reflexivity|]. f_equal. apply IH. Qed.
Lemma written_nth n i e st k : k < n -> nth_error (written n i e st) k =
  Some (mkcheckpoint (e + k) (pack (epochs_from (S k) i st)) (Some (measure (i + k) (epochs_from (S k) i st)))).
Proof.
  revert i e st k; induction n as [|n IH]; intros i e st k Hk; [lia|]. destruct k as [|k].
  - cbn. rewrite !Nat.add_0_r. reflexivity.
  - cbn [written nth_error]. rewrite IH by lia. rewrite <- !plus_n_Sm. reflexivity.
Qed.

Notation run := (run_epochs epoch measure pack).
Lemma run_next n i e st s : consecutive s -> e = length s -> run n i e st s = (epochs_from n i st, s ++ written n i e st).
Proof.
  revert i e st s; induction n as [|n IH]; intros i e st s H He; [cbn; rewrite app_nil_r; reflexivity|].
  cbn [run_epochs]. cbv zeta. rewrite save_next by (try assumption; cbn; congruence).
  rewrite IH; [|apply consecutive_snoc; cbn; assumption|rewrite app_length; cbn; lia].
  cbn [written epochs_from]. rewrite <- app_assoc. reflexivity.
Qed.
Lemma run_again n i e st s : consecutive s -> length s = S e ->
  run n i e st s = (epochs_from n i st, s ++ tl (written n i e st)).
Proof.
  intros H He. destruct n as [|n]; [cbn; rewrite app_nil_r; reflexivity|].
  cbn [run_epochs]. cbv zeta. rewrite save_old by (try assumption; cbn; lia). rewrite run_next by (try assumption; lia). reflexivity.
Qed.

Notation strt := (starting_state (Metric := Metric) fresh unpack).
Notation trn := (train fresh epoch measure pack unpack epochs).
Notation kill := (killed fresh epoch measure pack unpack epochs).

Lemma run_extends n i e st s : exists t, snd (run n i e st s) = s ++ t.
Proof.
  revert i e st s; induction n as [|n IH]; intros i e st s; [exists []; symmetry; apply app_nil_r|].
  cbn [run_epochs]. cbv zeta. destruct (save_extends s (mkcheckpoint e (pack (epoch i st)) (Some (measure i (epoch i st))))) as [t Ht].
  destruct (IH (S i) (S e) (epoch i st) (s ++ t)) as [t' Ht']. exists (t ++ t'). rewrite Ht, Ht', app_assoc. reflexivity.
Qed.

(** all that a run does to consecutive checkpoints *)
Lemma run_all n s : consecutive s ->
  run n 0 (starting_epoch s) (strt s) s =
  (epochs_from n 0 (strt s), s ++ (if length s =? 0 then written n 0 0 (strt s) else tl (written n 0 (length s - 1) (strt s)))).
Proof.
  intro H. unfold starting_epoch. rewrite consecutive_latest by assumption. destruct (length s) eqn:E; cbn [Nat.eqb].
  - apply run_next; [assumption|congruence].
  - rewrite Nat.sub_1_r. apply run_again; [assumption|exact E].
Qed.
Lemma run_consecutive n s : consecutive s -> consecutive (snd (run n 0 (starting_epoch s) (strt s) s)).
Proof.
  intro H. rewrite run_all by assumption. cbn [snd]. unfold consecutive. rewrite map_app, app_length, seq_app, H. f_equal.
  destruct (length s) eqn:E; cbn [Nat.eqb].
  - rewrite written_steps, written_length. reflexivity.
  - rewrite Nat.sub_1_r. cbn [Nat.pred]. destruct n; cbn [written tl]; [reflexivity|]. rewrite written_steps, written_length. reflexivity.
Qed.
Lemma run_length n s : consecutive s -> length (snd (run n 0 (starting_epoch s) (strt s) s)) = if length s =? 0 then n else Nat.max (length s) (length s + n - 1).
Proof.
  intro H. rewrite run_all by assumption. cbn [snd]. rewrite app_length. destruct (length s) eqn:E; cbn [Nat.eqb].
  - rewrite written_length. lia.
  - destruct n; cbn [written tl length]; [lia|]. rewrite written_length. lia.
Qed.

(** the checkpoints are consecutive and there are not more than all of them *)
Lemma after_inv s r : consecutive s -> length s <= S epochs ->
  consecutive (after_training fresh epoch measure pack unpack epochs s r) /\
  length (after_training fresh epoch measure pack unpack epochs s r) <= S epochs.
Proof.
  intros H Hl. assert (Hse : starting_epoch s = length s - 1).
  { unfold starting_epoch. rewrite consecutive_latest by assumption. destruct (length s); lia. }
  destruct r as [|k]; cbn [after_training].
  - unfold train. pose proof (run_consecutive (epochs_left epochs s) s H) as Hc.
    pose proof (run_length (epochs_left epochs s) s H) as Hn. destruct (run _ 0 _ _ s) as [st s'] eqn:E. cbn [snd] in *.
    assert (Hn' : length s' = S epochs \/ length s' = epochs).
    { unfold epochs_left in Hn. rewrite Hse in Hn. destruct (length s); cbn [Nat.eqb] in Hn; lia. }
    destruct Hn' as [Hn' | Hn'].
    + rewrite save_old by (try assumption; cbn; lia). split; [assumption|lia].
    + rewrite save_next by (try assumption; cbn; lia). split; [apply consecutive_snoc; cbn; congruence|rewrite app_length; cbn; lia].
  - unfold killed. split; [apply run_consecutive; assumption|].
    rewrite run_length by assumption. unfold epochs_left. rewrite Hse. destruct (length s); cbn [Nat.eqb]; lia.
Qed.
Lemma history_inv rs : consecutive (training_history fresh epoch measure pack unpack epochs rs) /\
  length (training_history fresh epoch measure pack unpack epochs rs) <= S epochs.
Proof.
  unfold training_history. assert (H : consecutive (@nil ckpt) /\ length (@nil ckpt) <= S epochs) by (split; [reflexivity|cbn; lia]).
  revert H. generalize (@nil ckpt). induction rs as [|r rs IH]; intros s [H Hl]; [auto|]. cbn [fold_left]. apply IH. apply after_inv; assumption.
Qed.

(** checkpoints that are there stay as they are *)
Lemma after_extends s r : exists t, after_training fresh epoch measure pack unpack epochs s r = s ++ t.
Proof.
  destruct r as [|k]; cbn [after_training].
  - unfold train. destruct (run_extends (epochs_left epochs s) 0 (starting_epoch s) (strt s) s) as [t Ht].
    destruct (run _ 0 _ _ s) as [st s'] eqn:E. cbn [snd] in *. subst s'.
    destruct (save_extends (s ++ t) (mkcheckpoint epochs (pack st) None)) as [t' Ht']. exists (t ++ t'). rewrite Ht', app_assoc. reflexivity.
  - unfold killed. apply run_extends.
Qed.
End Stores.

Section Theorems.
Context {State Saved Metric : Type}.
Variables (fresh : State) (epoch : nat -> State -> State) (measure : nat -> State -> Metric).
Variables (pack : State -> Saved) (unpack : State -> Saved -> State) (epochs : nat).
Notation stor := (@store Saved Metric).
Notation trn := (train fresh epoch measure pack unpack epochs).
Notation hist := (training_history fresh epoch measure pack unpack epochs).

(** A run without an interruption trains all epochs.  The checkpoint of every
    epoch holds the state and the metrics after it, and the last checkpoint the
    result. *)
Theorem training_uninterrupted :
  let (result, s) := trn [] in
  result = continued epoch epochs fresh /\
  map ck_step s = seq 0 (S epochs) /\
  (forall n, n < epochs ->
     restore_step s n = Some (mkcheckpoint n (pack (continued epoch (S n) fresh)) (Some (measure n (continued epoch (S n) fresh))))) /\
  restore_step s epochs = Some (mkcheckpoint epochs (pack result) None).
Proof.
  assert (H0 : consecutive (@nil (@checkpoint Saved Metric))) by reflexivity.
  unfold train, epochs_left. cbn [starting_epoch latest_step starting_state]. rewrite Nat.sub_0_r.
  rewrite (run_next epoch measure pack epochs 0 0 fresh [] H0 eq_refl). cbn [app].
  assert (Hc : consecutive (written epoch measure pack epochs 0 0 fresh)).
  { unfold consecutive. rewrite written_steps, written_length. reflexivity. }
  rewrite save_next by (try assumption; cbn; rewrite written_length; reflexivity).
  assert (Hc' : consecutive (written epoch measure pack epochs 0 0 fresh ++ [mkcheckpoint epochs (pack (epochs_from epoch epochs 0 fresh)) None])).
  { apply consecutive_snoc; [assumption|cbn; rewrite written_length; reflexivity]. }
  split; [apply epochs_from_continued|]. split.
  { rewrite Hc', app_length, written_length. cbn [length]. rewrite Nat.add_1_r. reflexivity. }
  split.
  - intros n Hn. rewrite restore_nth, nth_error_app1 by (try assumption; rewrite written_length; assumption).
    rewrite written_nth by assumption. cbn [Nat.add]. rewrite epochs_from_continued. reflexivity.
  - rewrite restore_nth, nth_error_app2, written_length, Nat.sub_diag by (try assumption; rewrite written_length; lia). reflexivity.
Qed.

(** Whatever a run does, and however it ends, the checkpoints that were there
    before it are there after it, unchanged; their steps are 0, 1, 2, ... *)
Theorem training_keeps rs r :
  (exists later, hist (rs ++ [r]) = hist rs ++ later) /\
  map ck_step (hist rs) = seq 0 (length (hist rs)) /\ length (hist rs) <= S epochs.
Proof.
  split.
  - unfold training_history. rewrite fold_left_app. apply after_extends.
  - apply history_inv.
Qed.

(** What a run makes of what earlier runs left: with no checkpoint, and with the
    checkpoint of the first epoch alone, it starts anew; with more it goes on
    from the latest checkpoint and does the epoch of that checkpoint again. *)
Theorem training_resumed rs : (forall st, unpack fresh (pack st) = st) ->
  match length (hist rs) with
  | 0 | 1 => fst (trn (hist rs)) = continued epoch epochs fresh
  | S l => forall st m, restore_step (hist rs) l = Some (mkcheckpoint l (pack st) m) ->
           fst (trn (hist rs)) = continued epoch (epochs - l) st
  end.
Proof.
  intro Hp. destruct (history_inv fresh epoch measure pack unpack epochs rs) as [H Hl].
  set (s := hist rs) in *. assert (Hf : fst (trn s) = epochs_from epoch (epochs_left epochs s) 0 (starting_state fresh unpack s)).
  { unfold train. rewrite run_all by assumption. reflexivity. }
  rewrite Hf. clear Hf. unfold epochs_left, starting_epoch, starting_state. rewrite consecutive_latest by assumption.
  rewrite epochs_from_continued. destruct (length s) as [|[|l]]; [rewrite Nat.sub_0_r; reflexivity..|].
  intros st m E. rewrite E. cbn [ck_items]. rewrite Hp. reflexivity.
Qed.

(** Training that has completed does nothing more: the result is the stored one. *)
Theorem training_completed rs : epochs <> 0 -> (forall st, unpack fresh (pack st) = st) ->
  length (hist rs) = S epochs ->
  snd (trn (hist rs)) = hist rs /\
  forall st m, restore_step (hist rs) epochs = Some (mkcheckpoint epochs (pack st) m) -> fst (trn (hist rs)) = st.
Proof.
  intros He Hp Hn. destruct (history_inv fresh epoch measure pack unpack epochs rs) as [H Hl].
  pose proof (training_resumed rs Hp) as Hr. set (s := hist rs) in *. split.
  - unfold train, epochs_left, starting_epoch. rewrite consecutive_latest by assumption. rewrite Hn, Nat.sub_diag. cbn [run_epochs snd].
    apply save_old; [assumption|cbn; lia].
  - intros st m E. rewrite Hn in Hr. destruct epochs as [|n]; [congruence|]. rewrite (Hr st m E), Nat.sub_diag. reflexivity.
Qed.

Lemma trained_from i n k st : trained epoch fresh n st -> trained epoch fresh (k + n) (epochs_from epoch k i st).
Proof.
  revert i n st. induction k as [|k IH]; intros i n st H; [exact H|]. cbn [epochs_from].
  rewrite Nat.add_succ_comm. apply IH. constructor. exact H.
Qed.

(** In every history of killed and completed runs, the checkpoint of an epoch
    holds a state that went through at least the epochs up to it and at most
    twice as many as its number, and the last checkpoint a state that went through
    at least all epochs and less than twice as many. *)
Theorem training_epochs rs c : (forall st, unpack fresh (pack st) = st) -> In c (hist rs) ->
  exists n st, ck_items c = pack st /\ trained epoch fresh n st /\
    (ck_step c < epochs -> S (ck_step c) <= n <= Nat.max 1 (2 * ck_step c)) /\
    (ck_step c = epochs -> epochs <= n <= 2 * epochs - 1).
Proof.
  intros Hp. set (good := fun c : @checkpoint Saved Metric => exists n st, ck_items c = pack st /\ trained epoch fresh n st /\
    (ck_step c < epochs -> S (ck_step c) <= n <= Nat.max 1 (2 * ck_step c)) /\
    (ck_step c = epochs -> epochs <= n <= 2 * epochs - 1)).
  enough (H : Forall good (hist rs)) by (rewrite Forall_forall in H; apply H).
  induction rs as [|r rs IH] using rev_ind; [constructor|].
  destruct (history_inv fresh epoch measure pack unpack epochs rs) as [H Hl].
  unfold training_history in *. rewrite fold_left_app. cbn [fold_left]. set (s := fold_left (after_training fresh epoch measure pack unpack epochs) rs []) in *.
  (* the state a run starts from *)
  assert (Hst : exists n, trained epoch fresh n (starting_state fresh unpack s) /\
            (length s <= 1 -> n = 0) /\ (2 <= length s <= epochs -> length s <= n <= 2 * (length s - 1)) /\
            (length s = S epochs -> epochs <= n <= 2 * epochs - 1)).
  { unfold starting_state. rewrite consecutive_latest by assumption. destruct (length s) as [|[|l]] eqn:E.
    - exists 0. split; [constructor|]. repeat split; lia.
    - exists 0. split; [constructor|]. repeat split; lia.
    - rewrite restore_nth by assumption. destruct (nth_error s (S l)) as [c0|] eqn:Ec.
      2:{ apply nth_error_None in Ec. lia. }
      rewrite Forall_forall in IH. destruct (IH c0 (nth_error_In _ _ Ec)) as (n & st & Hi & Ht & H1 & H2).
      assert (Hcs : ck_step c0 = S l).
      { assert (Hm : nth_error (map ck_step s) (S l) = Some (ck_step c0)) by (apply map_nth_error; exact Ec).
        unfold consecutive in H. rewrite H in Hm. apply nth_error_nth with (d := 0) in Hm. rewrite seq_nth in Hm by lia. lia. }
      rewrite Hi, Hp. rewrite Hcs in *. exists n. split; [exact Ht|]. split; [lia|]. split; [intro; specialize (H1 ltac:(lia)); lia|]. intro. apply H2. lia. }
  destruct Hst as (n0 & Ht0 & Hn0 & Hn1 & Hn2). set (st0 := starting_state fresh unpack s) in *.
  (* what k epochs write *)
  assert (Hrun : forall k, k <= epochs_left epochs s ->
            Forall good (snd (run_epochs epoch measure pack k 0 (starting_epoch s) st0 s))).
  { intros k Hk. unfold st0. rewrite run_all by assumption. fold st0. cbn [snd]. apply Forall_app. split; [exact IH|].
    unfold epochs_left, starting_epoch in Hk. rewrite consecutive_latest in Hk by assumption.
    assert (Hw : forall k' e, e = length s - 1 -> k' <= epochs - e -> forall j, j < k' -> (length s <> 0 -> 0 < j) ->
              forall c, nth_error (written epoch measure pack k' 0 e st0) j = Some c -> good c).
    { intros k' e He Hk' j Hj Hpos c0. rewrite written_nth by assumption. intro E. injection E as <-. exists (S j + n0), (epochs_from epoch (S j) 0 st0).
      cbn [ck_items ck_step]. split; [reflexivity|]. split; [apply trained_from; exact Ht0|].
      split; [|intro; lia]. intro Hlt. destruct (length s) as [|[|l]] eqn:E; [rewrite Hn0 by lia; lia|rewrite Hn0 by lia; lia|].
      specialize (Hpos ltac:(discriminate)). specialize (Hn1 ltac:(lia)). lia. }
    rewrite Forall_forall. intros c0 Hin. apply In_nth_error in Hin. destruct Hin as [j Hj].
    destruct (length s) as [|l] eqn:E; cbn [Nat.eqb] in Hj.
    - assert (Hjk : j < k) by (rewrite <- (written_length epoch measure pack k 0 0 st0); apply nth_error_Some; congruence).
      apply (Hw k 0) with (j := j) (c := c0); try exact Hj; lia.
    - destruct k as [|k]; [destruct j; discriminate|].
      assert (Hj' : nth_error (written epoch measure pack (S k) 0 (S l - 1) st0) (S j) = Some c0) by exact Hj.
      assert (Hjk : S j < S k) by (rewrite <- (written_length epoch measure pack (S k) 0 (S l - 1) st0); apply nth_error_Some; congruence).
      apply (Hw (S k) (S l - 1)) with (j := S j) (c := c0); try exact Hj'; lia. }
  destruct r as [|k]; cbn [after_training].
  2:{ unfold killed. apply Hrun. lia. }
  unfold train. fold st0. specialize (Hrun (epochs_left epochs s) (le_n _)).
  pose proof (run_consecutive fresh epoch measure pack unpack (epochs_left epochs s) s H) as Hc'.
  assert (Hra := run_all fresh epoch measure pack unpack (epochs_left epochs s) s H).
  change (starting_state fresh unpack s) with st0 in Hra, Hc'. rewrite Hra in Hrun, Hc' |- *. cbn [snd] in Hrun, Hc' |- *.
  match goal with Hx : consecutive ?x |- context [save_checkpoint ?x _] => set (s' := x) in * end. unfold save_checkpoint. rewrite consecutive_latest by assumption.
  assert (Hlast : good (mkcheckpoint epochs (pack (epochs_from epoch (epochs_left epochs s) 0 st0)) None)).
  { exists (epochs_left epochs s + n0), (epochs_from epoch (epochs_left epochs s) 0 st0). cbn [ck_items ck_step].
    split; [reflexivity|]. split; [apply trained_from; exact Ht0|]. split; [lia|]. intros _.
    unfold epochs_left, starting_epoch. rewrite consecutive_latest by assumption.
    destruct (length s) as [|[|l]] eqn:E; [rewrite Hn0 by lia; lia|rewrite Hn0 by lia; lia|].
    destruct (Nat.eq_dec (S (S l)) (S epochs)) as [E'|E']; [specialize (Hn2 E'); lia|]. specialize (Hn1 ltac:(lia)). lia. }
  destruct (length s') as [|l']; [apply Forall_app; auto|].
  destruct (ck_step _ <=? l'); [exact Hrun|apply Forall_app; auto].
Qed.

(** One crash, exactly: a run that is killed before its second checkpoint is
    forgotten by the next run; one that is killed later makes the next run repeat
    the last epoch, so that the result went through one epoch more than asked
    for. *)
Theorem training_one_crash k : (forall st, unpack fresh (pack st) = st) -> k <= epochs ->
  fst (trn (hist [KilledAfter k])) =
    if k <=? 1 then continued epoch epochs fresh
    else continued epoch (epochs - k + 1) (continued epoch k fresh).
Proof.
  intros Hp Hk. pose proof (training_resumed [KilledAfter k] Hp) as Hr. revert Hr.
  unfold training_history. cbn [fold_left after_training]. unfold killed, epochs_left. cbn [starting_epoch latest_step starting_state].
  rewrite Nat.sub_0_r, (run_next epoch measure pack _ 0 0 fresh []) by reflexivity. cbn [snd app].
  rewrite Nat.min_l by assumption. rewrite written_length. intro Hr.
  assert (Hc : consecutive (written epoch measure pack k 0 0 fresh)).
  { unfold consecutive. rewrite written_steps, written_length. reflexivity. }
  destruct k as [|[|k]]; [exact Hr|exact Hr|]. cbn [Nat.leb].
  rewrite (Hr (epochs_from epoch (S (S k)) 0 fresh) (Some (measure (S k) (epochs_from epoch (S (S k)) 0 fresh)))).
  2:{ rewrite restore_nth, written_nth by (try assumption; lia). reflexivity. }
  rewrite epochs_from_continued. f_equal. lia.
Qed.
End Theorems.

(** "A run that was killed and started again gives what one run gives": false as
    soon as the killed run has left two checkpoints. *)
Theorem training_crash_refuted epochs k : 2 <= k <= epochs ->
  let count := train (Metric := unit) 0 (fun _ n => S n) (fun _ _ => tt) (fun n => n) (fun _ n => n) epochs in
  fst (count []) = epochs /\ fst (count (training_history 0 (fun _ n => S n) (fun _ _ => tt) (fun n => n) (fun _ n => n) epochs [KilledAfter k])) = S epochs.
Proof.
  intros Hk count.
  assert (Hc : forall n st, continued (fun _ n => S n) n st = n + st) by (induction n as [|n IH]; intro st; cbn; congruence).
  split.
  - pose proof (training_uninterrupted 0 (fun _ n => S n) (fun _ _ => tt) (fun n => n) (fun _ n : nat => n) epochs) as H.
    unfold count. destruct (train _ _ _ _ _ _ []) as [r s]. destruct H as [-> _]. cbn [fst]. rewrite Hc. apply Nat.add_0_r.
  - unfold count. rewrite training_one_crash by (try reflexivity; lia). destruct (Nat.leb_spec k 1); [lia|]. rewrite Hc, (Hc k 0). lia.
Qed.

(** * The best checkpoint *)
Section Best.
Context {Saved Metric : Type}.
Variable score : Metric -> R.
Notation ckpt := (@checkpoint Saved Metric).

Definition best_found (s : @store Saved Metric) (b : option (ckpt * R)) : Prop :=
  match b with
  | None => forall c, In c s -> ck_metrics c = None
  | Some (c, v) => best_of score s c /\ exists m, ck_metrics c = Some m /\ v = score m
  end.
Lemma best_fold s : best_found s (fold_left (better score) s None).
Proof.
  induction s as [|c s IH] using rev_ind; [cbn; contradiction|]. rewrite fold_left_app. cbn [fold_left].
  set (b0 := fold_left (better score) s None) in *. clearbody b0. unfold better. destruct (ck_metrics c) as [m|] eqn:Em.
  - destruct b0 as [[b v]|]; cbn [best_found] in *.
    + destruct IH as [(be & af & mb & Es & Eb & Hb & Ha) (m' & Em' & Ev)]. rewrite Eb in Em'. injection Em' as <-. subst v.
      destruct (Rleb (score mb) (score m)) eqn:El.
      * unfold Rleb in El. destruct (Rle_dec (score mb) (score m)) as [Hle|]; [|discriminate].
        unfold best_found; split; [|exists m; auto]. exists s, [], m. split; [reflexivity|]. split; [exact Em|]. split; [|intros ? ? []].
        intros c' m' Hin E'. rewrite Es in Hin. apply in_app_or in Hin. destruct Hin as [Hin | [-> | Hin]].
        -- eapply Rle_trans; [eapply Hb; eassumption|assumption].
        -- rewrite Eb in E'. injection E' as <-. assumption.
        -- apply Rlt_le. eapply Rlt_le_trans; [eapply Ha; eassumption|assumption].
      * unfold Rleb in El. destruct (Rle_dec (score mb) (score m)) as [|Hgt]; [discriminate|].
        unfold best_found; split; [|exists mb; auto]. exists be, (af ++ [c]), mb. split; [rewrite Es, <- app_assoc; reflexivity|].
        split; [exact Eb|]. split; [exact Hb|]. intros c' m' Hin E'. apply in_app_or in Hin. destruct Hin as [Hin | [<- | []]].
        -- eapply Ha; eassumption.
        -- rewrite Em in E'. injection E' as <-. apply Rnot_le_lt. assumption.
    + unfold best_found; split; [|exists m; auto]. exists s, [], m. split; [reflexivity|]. split; [exact Em|]. split; [|intros ? ? []].
      intros c' m' Hin E'. rewrite (IH c' Hin) in E'. discriminate.
  - destruct b0 as [[b v]|]; cbn [best_found] in *.
    + destruct IH as [(be & af & mb & Es & Eb & Hb & Ha) Hv]. unfold best_found; split; [|exact Hv].
      exists be, (af ++ [c]), mb. split; [rewrite Es, <- app_assoc; reflexivity|]. split; [exact Eb|]. split; [exact Hb|].
      intros c' m' Hin E'. apply in_app_or in Hin. destruct Hin as [Hin | [<- | []]]; [eapply Ha; eassumption|congruence].
    + intros c' Hin. apply in_app_or in Hin. destruct Hin as [Hin | [<- | []]]; auto.
Qed.
Lemma best_checkpoint_spec (s : @store Saved Metric) :
  match best_checkpoint score s with
  | Some c => best_of score s c
  | None => forall c, In c s -> ck_metrics c = None
  end.
Proof.
  unfold best_checkpoint. pose proof (best_fold s) as H. destruct (fold_left (better score) s None) as [[c v]|]; cbn in *; tauto.
Qed.
End Best.

(** The packaged network is that of the checkpoint with the greatest score among
    those that have metrics; the later one among equals.  Without any such
    checkpoint nothing is packaged. *)
Theorem package_best {Byte Net Saved Metric : Type} (files : Net -> list (name_path * list Byte)) (network : Saved -> Net)
    (accuracy loss drift : Metric -> R) tmpdir (s : @store Saved Metric) :
  match save_detector files network accuracy tmpdir s with
  | Ok a => exists c, best_of accuracy s c /\ a = detector_archive files tmpdir (network (ck_items c))
  | Raise x => x = FileNotFoundError /\ forall c, In c s -> ck_metrics c = None
  | OutOfFuel => False
  end /\
  match save_aligner files network loss drift tmpdir s with
  | Ok a => exists c, best_of (fun m => - (loss m + drift m))%R s c /\ a = aligner_archive files tmpdir (network (ck_items c))
  | Raise x => x = FileNotFoundError /\ forall c, In c s -> ck_metrics c = None
  | OutOfFuel => False
  end.
Proof.
  unfold save_detector, save_aligner, packaged. split.
  - pose proof (best_checkpoint_spec accuracy s) as H. destruct (best_checkpoint accuracy s) as [c|]; [|split; [reflexivity|exact H]]. exists c. auto.
  - pose proof (best_checkpoint_spec (aligner_score loss drift) s) as H. destruct (best_checkpoint _ s) as [c|]; [|split; [reflexivity|exact H]]. exists c.
    split; [|reflexivity]. destruct H as (be & af & m & Es & Em & Hb & Ha). exists be, af, m. split; [exact Es|]. split; [exact Em|].
    unfold aligner_score in *. split; intros c' m' Hin E'; [specialize (Hb c' m' Hin E')|specialize (Ha c' m' Hin E')]; lra.
Qed.

(** After training without an interruption the packaged network is that of the
    best epoch: no epoch has a greater score and no later one the same. *)
Theorem package_trained {Byte Net State Metric : Type} (files : Net -> list (name_path * list Byte)) (network : State -> Net)
    (accuracy : Metric -> R) tmpdir fresh epoch measure epochs : epochs <> 0 ->
  exists n, n < epochs /\
    (forall k, k < epochs -> (accuracy (measure k (continued epoch (S k) fresh)) <= accuracy (measure n (continued epoch (S n) fresh)))%R) /\
    (forall k, n < k < epochs -> (accuracy (measure k (continued epoch (S k) fresh)) < accuracy (measure n (continued epoch (S n) fresh)))%R) /\
    save_detector files network accuracy tmpdir (snd (train fresh epoch measure (fun st : State => st) (fun _ st => st) epochs [])) =
      Ok (detector_archive files tmpdir (network (continued epoch (S n) fresh))).
Proof.
  intro He. pose proof (training_uninterrupted fresh epoch measure (fun st : State => st) (fun _ st => st) epochs) as H.
  destruct (train _ _ _ _ _ _ []) as [r s]. destruct H as (_ & Hs & Hn & Hl). cbn [snd].
  assert (Hlen : length s = S epochs) by (rewrite <- (map_length ck_step), Hs, seq_length; reflexivity).
  assert (Hc : consecutive s) by (unfold consecutive; rewrite Hs, Hlen; reflexivity).
  assert (Hnth : forall k, k < epochs -> nth_error s k = Some (mkcheckpoint k (continued epoch (S k) fresh) (Some (measure k (continued epoch (S k) fresh))))).
  { intros k Hk. rewrite <- restore_nth by assumption. apply Hn. exact Hk. }
  destruct (package_best files network accuracy accuracy accuracy tmpdir s) as [Hp _].
  destruct (save_detector files network accuracy tmpdir s) as [a|e|] eqn:E.
  2: apply proj2 in Hp; specialize (Hp _ (nth_error_In _ _ (Hnth 0 ltac:(lia)))); discriminate.
  2: contradiction.
  destruct Hp as (c & (be & af & m & Es & Em & Hb & Ha) & ->).
  set (n := length be).
  assert (Hcn : nth_error s n = Some c) by (rewrite Es, nth_error_app2 by lia; unfold n; rewrite Nat.sub_diag; reflexivity).
  assert (Hlt : n < epochs).
  { assert (n < S epochs) by (rewrite <- Hlen; apply nth_error_Some; congruence).
    destruct (Nat.eq_dec n epochs) as [Eq|]; [|lia]. exfalso. rewrite restore_nth in Hl by assumption. rewrite <- Eq in Hl. rewrite Hcn in Hl.
    injection Hl as ->. discriminate. }
  rewrite (Hnth n Hlt) in Hcn. injection Hcn as <-. cbn [ck_metrics ck_items] in *. injection Em as <-.
  assert (Hgt : forall k, n < k < epochs -> (accuracy (measure k (continued epoch (S k) fresh)) < accuracy (measure n (continued epoch (S n) fresh)))%R).
  { intros k Hk. apply (Ha (mkcheckpoint k (continued epoch (S k) fresh) (Some (measure k (continued epoch (S k) fresh)))) _); [|reflexivity]. pose proof (Hnth k ltac:(lia)) as Hk'. rewrite Es, nth_error_app2 in Hk' by (fold n; lia).
    fold n in Hk'. destruct (k - n) as [|j] eqn:Ej; [lia|]. cbn [nth_error] in Hk'. eapply nth_error_In. exact Hk'. }
  exists n. split; [exact Hlt|]. split; [|split; [exact Hgt|cbn [ck_items]; reflexivity]].
  intros k Hk. destruct (Nat.lt_trichotomy k n) as [Hkn | [-> | Hkn]]; [|apply Rle_refl|apply Rlt_le, Hgt; lia].
  apply (Hb (mkcheckpoint k (continued epoch (S k) fresh) (Some (measure k (continued epoch (S k) fresh)))) _); [|reflexivity]. pose proof (Hnth k ltac:(lia)) as Hk'. rewrite Es, nth_error_app1 in Hk' by (fold n; lia).
  eapply nth_error_In. exact Hk'.
Qed.

(** * Installing what was packaged *)
Lemma drop_prefix_app tmpdir p : drop_prefix tmpdir (tmpdir ++ p) = p.
Proof.
  unfold drop_prefix. rewrite firstn_app, firstn_all, Nat.sub_diag. cbn [firstn]. rewrite app_nil_r, path_eqb_refl.
  rewrite skipn_app, skipn_all, Nat.sub_diag. reflexivity.
Qed.

(** The archive of an image aligner, installed where none was, gives exactly the
    files of the network (when no path is saved twice). *)
Theorem package_aligner_installs {Byte Net : Type} (files : Net -> list (name_path * list Byte))
    (unzip : list Byte -> res (list (name_path * list Byte))) tmpdir net zipped (d : @disk Byte) :
  unzip zipped = Ok (aligner_archive files tmpdir net) -> NoDup (map fst (files net)) ->
  exists_path d aligner_path = false -> (forall q, files_in d aligner_path q = None) ->
  exists ws, aligner_from_path unzip (Some zipped) false d = (ws, Ok aligner_path) /\
    forall q c, files_in (do_writes d ws) aligner_path q = Some c <-> In (q, c) (files net).
Proof.
  intros Hz Hd He Hf. unfold aligner_from_path. rewrite He, Hz. cbn [negb orb]. eexists. split; [reflexivity|].
  intros q c. rewrite do_writes_app. set (d1 := do_writes d (mkdirs aligner_path)).
  assert (Hd1 : forall q', files_in d1 aligner_path q' = None).
  { intro q'. unfold files_in, d1. rewrite mkdirs_files. apply Hf. }
  change (removelast aligner_path) with weights.
  change (files_in (do_writes d1 (extract_all weights (aligner_archive files tmpdir net))) aligner_path q)
    with (files_in (do_writes d1 (extract_all weights (aligner_archive files tmpdir net))) weights ("image-alignment-model"%string :: q)).
  assert (Ha : aligner_archive files tmpdir net = map (fun f => ("image-alignment-model"%string :: fst f, snd f)) (files net)).
  { unfold aligner_archive. apply map_ext. intro f. rewrite drop_prefix_app. reflexivity. }
  pose proof (extract_all_unpacked weights (aligner_archive files tmpdir net) d1 ("image-alignment-model"%string :: q)) as Hu.
  rewrite Ha in *. set (D := do_writes d1 _) in *.
  assert (Hin : forall q', In ("image-alignment-model"%string :: q') (map fst (map (fun f : name_path * list Byte => ("image-alignment-model"%string :: fst f, snd f)) (files net))) <-> In q' (map fst (files net))).
  { intro q'. rewrite map_map. cbn. split; intro H; apply in_map_iff in H; destruct H as (f & E & H).
    - injection E as <-. apply in_map. exact H.
    - subst q'. apply in_map_iff. exists f. auto. }
  destruct Hu as [(l & c' & r & E & Hr & H) | (Hn & H)]; rewrite H.
  - assert (Hc' : In (q, c') (files net)).
    { assert (Hi : In ("image-alignment-model"%string :: q, c') (l ++ ("image-alignment-model"%string :: q, c') :: r))
        by (apply in_or_app; right; left; reflexivity). 
      apply (eq_ind_r (fun x => In ("image-alignment-model"%string :: q, c') x) Hi) in E. clear Hi. rename E into Hi.
      apply in_map_iff in Hi. destruct Hi as ([q' c''] & Eq & Hi). cbn in Eq. injection Eq as -> ->. exact Hi. }
    split; [intro K; injection K as <-; exact Hc'|]. intro K. f_equal.
    clear - Hd Hc' K. induction (files net) as [|[p x] fs IH]; [destruct K|]. cbn in Hd. inversion Hd; subst.
    destruct Hc' as [E1 | K1], K as [E2 | K2].
    + congruence.
    + injection E1 as -> ->. exfalso. match goal with Hx : ~ In _ _ |- _ => apply Hx end. change q with (fst (q, c)). apply in_map. exact K2.
    + injection E2 as -> ->. exfalso. match goal with Hx : ~ In _ _ |- _ => apply Hx end. change q with (fst (q, c')). apply in_map. exact K1.
    + auto.
  - change (files_in d1 weights ("image-alignment-model"%string :: q)) with (files_in d1 aligner_path q). rewrite Hd1.
    split; [discriminate|]. intro K. exfalso. apply Hn. rewrite Hin. change q with (fst (q, c)). apply in_map. exact K.
Qed.

(** "The archive of an atom detector can be installed": false.  Its files carry
    the path of the temporary directory, and none of them ends up in the
    directory the detector is loaded from. *)
Theorem package_detector_refuted {Byte Net : Type} (files : Net -> list (name_path * list Byte))
    (unzip : list Byte -> res (list (name_path * list Byte))) root tmpdir net zipped (d : @disk Byte) :
  unzip zipped = Ok (detector_archive files (root :: tmpdir) net) -> root <> "atom-detection-model"%string ->
  exists_path d detector_path = false -> (forall q, files_in d detector_path q = None) ->
  exists ws, detector_from_url unzip ([zipped], None) d = (ws, Ok detector_path) /\
    (forall q, files_in (do_writes d ws) detector_path q = None) /\
    (forall q c, NoDup (map fst (files net)) -> In (q, c) (files net) ->
       files_in (do_writes d ws) weights (root :: tmpdir ++ "packaged"%string :: q) = Some c).
Proof.
  intros Hz Hr He Hf. unfold detector_from_url. rewrite He. cbn [snd fst concat]. rewrite app_nil_r, Hz. eexists. split; [reflexivity|].
  rewrite do_writes_app. set (d1 := do_writes d (mkdirs detector_path)). change (removelast detector_path) with weights. split.
  - intro q. unfold files_in. rewrite extract_all_other.
    + unfold d1. rewrite mkdirs_files. apply Hf.
    + intros e Hin E. apply in_map_iff in Hin. destruct Hin as (f & <- & _). cbn in E. injection E as E. congruence.
  - intros q c Hd Hin. destruct (extract_all_unpacked weights (detector_archive files (root :: tmpdir) net) d1 (root :: tmpdir ++ "packaged"%string :: q))
      as [(l & c' & r & E & Hr' & H) | (Hn & H)].
    + rewrite H. f_equal.
      assert (Hi : In (root :: tmpdir ++ "packaged"%string :: q, c') (detector_archive files (root :: tmpdir) net)).
      { rewrite E. apply in_or_app. right. left. reflexivity. }
      apply in_map_iff in Hi. destruct Hi as ([q' c''] & Eq & Hi). cbn in Eq. injection Eq as Eq ->. apply app_inv_head in Eq. injection Eq as ->.
      clear - Hd Hin Hi. induction (files net) as [|[p x] fs IH]; [destruct Hin|]. cbn in Hd. inversion Hd; subst.
      destruct Hi as [E1 | H1'], Hin as [E2 | H2'].
      * congruence.
      * injection E1 as -> ->. exfalso. match goal with Hx : ~ In _ _ |- _ => apply Hx end. change q with (fst (q, c)). apply in_map. exact H2'.
      * injection E2 as -> ->. exfalso. match goal with Hx : ~ In _ _ |- _ => apply Hx end. change q with (fst (q, c')). apply in_map. exact H1'.
      * auto.
    + exfalso. apply Hn. apply in_map_iff. exists (root :: tmpdir ++ "packaged"%string :: q, c). split; [reflexivity|].
      apply in_map_iff. exists (q, c). split; [reflexivity|exact Hin].
Qed.

(** * The parameters without their boxes *)
Fixpoint tree_size {A} (t : param_tree A) : nat :=
  match t with
  | PLeaf _ => 1
  | PNode items => S ((fix all l := match l with [] => 0 | i :: l' => tree_size (snd i) + all l' end) items)
  end.
(** Taking the boxes off a boxed tree gives the tree, and a tree without boxes is
    left alone. *)
Theorem unboxed {A} (t : param_tree A) : plain t -> remove_value_layer (boxed t) = t /\ remove_value_layer t = t.
Proof.
  remember (tree_size t) as n eqn:En. assert (Hle : tree_size t <= n) by lia. clear En. revert t Hle.
  induction n as [|n IH]; intros t Hle Hp; [destruct t; cbn in Hle; lia|].
  destruct t as [a|items]; [split; reflexivity|]. cbn in Hle, Hp.
  assert (Hno : forall f : param_tree A -> param_tree A, lookup_key "value" (map (fun i => (fst i, f (snd i))) items) = None).
  { intro f. clear - Hp. induction items as [|i items IHi]; [reflexivity|]. destruct Hp as (Hk & _ & Hp). unfold lookup_key in *. cbn.
    destruct (String.eqb_spec (fst i) "value"); [contradiction|]. apply IHi. exact Hp. }
  assert (Hsub : forall i, In i items -> tree_size (snd i) <= n /\ plain (snd i)).
  { clear - Hle Hp. induction items as [|i items IHi]; [intros ? []|]. destruct Hp as (Hk & Hpi & Hp). intros j [<- | Hj]; [split; [lia|exact Hpi]|].
    apply IHi; [lia|exact Hp|exact Hj]. }
  split.
  - cbn [boxed remove_value_layer]. rewrite Hno. f_equal. rewrite map_map. cbn [fst snd]. rewrite <- (map_id items) at 2. apply map_ext_in.
    intros [k v] Hi. destruct (Hsub _ Hi) as [Hs Hpl]. cbn [fst snd] in *. f_equal. apply (IH v Hs Hpl).
  - cbn [remove_value_layer]. assert (Hn' : lookup_key "value" items = None).
    { rewrite <- (map_id items) at 1. rewrite <- (Hno (fun t => t)). f_equal. apply map_ext. intros [k v]. reflexivity. }
    rewrite Hn'. f_equal. rewrite <- (map_id items) at 2. apply map_ext_in.
    intros [k v] Hi. destruct (Hsub _ Hi) as [Hs Hpl]. cbn [fst snd] in *. f_equal. apply (IH v Hs Hpl).
Qed.

(** Examples: the epochs a state went through, in four runs for five epochs. *)
Example training_nonvacuous :
  let h := training_history (Metric := nat) [] (fun i st => st ++ [i]) (fun _ st => length st) (fun st => st) (fun _ st => st) 5 in
  map ck_items (h [KilledAfter 1; KilledAfter 3; KilledAfter 2]) = [[0]; [0; 1]; [0; 1; 2]; [0; 1; 2; 0; 1]] /\
  fst (train (Metric := nat) [] (fun i st => st ++ [i]) (fun _ st => length st) (fun st => st) (fun _ st => st) 5
         (h [KilledAfter 1; KilledAfter 3; KilledAfter 2])) = [0; 1; 2; 0; 1; 0; 1] /\
  length (h [KilledAfter 1; KilledAfter 3; KilledAfter 2; Completes]) = 6 /\
  h [KilledAfter 3; Completes; Completes] = h [KilledAfter 3; Completes].
Proof. repeat split. Qed.

Definition ex_files (n : nat) : list (name_path * list nat) := [(["saved_model.pb"%string], [n]); (["variables"%string; "index"%string], [n; n])].
Example package_nonvacuous :
  let a := aligner_archive ex_files ["tmp"%string; "x"%string] 7 in
  let b := detector_archive ex_files ["tmp"%string; "x"%string] 7 in
  let d := @new_disk nat in
  NoDup (map fst (ex_files 7)) /\ exists_path d aligner_path = false /\ exists_path d detector_path = false /\
  (let ws := fst (aligner_from_path (fun _ => Ok a) (Some []) false d) in
   files_in (do_writes d ws) aligner_path ["variables"%string; "index"%string] = Some [7; 7]) /\
  (let ws := fst (detector_from_url (fun _ => Ok b) ([[]], None) d) in
   files_in (do_writes d ws) detector_path ["variables"%string; "index"%string] = None /\
   d_file (do_writes d ws) ["model_weights"; "tmp"; "x"; "packaged"; "variables"; "index"]%string = Some [7; 7]) /\
  best_checkpoint (fun m : R => m) [mkcheckpoint 0 10 (Some 1%R); mkcheckpoint 1 11 (Some 2%R); mkcheckpoint 2 12 (Some 2%R); mkcheckpoint 3 13 None]
    = Some (mkcheckpoint 2 12 (Some 2%R)) /\
  plain (PNode [("kernel"%string, PLeaf 1); ("layer"%string, PNode [("bias"%string, PLeaf 2)])]).
Proof.
  cbv zeta. split.
  { cbn. constructor; [intros [E | []]; discriminate|]. constructor; [intros []|constructor]. }
  do 4 (split; [reflexivity || (split; reflexivity)|]). split.
  - unfold best_checkpoint. cbn. unfold Rleb. destruct (Rle_dec 1 2); [|lra]. destruct (Rle_dec 2 2); [reflexivity|lra].
  - cbn. repeat split; discriminate.
Qed.

Print Assumptions training_uninterrupted.
Print Assumptions training_keeps.
Print Assumptions training_resumed.
Print Assumptions training_completed.
Print Assumptions training_epochs.
Print Assumptions training_one_crash.
Print Assumptions training_crash_refuted.
Print Assumptions package_best.
Print Assumptions package_trained.
Print Assumptions package_aligner_installs.
Print Assumptions package_detector_refuted.
Print Assumptions unboxed.
