(** C92, C93: which random keys a predictor uses, and what its options choose *)
From Coq Require Import Reals ZArith List Bool Arith Lia Lra.
From Verif Require Import Base.Prelude Model.DataUtils Model.MicroscopeUtils Model.LearnRates Spec.Networks Proofs.BaseFacts Props.PredictorProps Props.DistillProps.
Import ListNotations.
Open Scope R_scope.

Section Keys.
Context {P ST OS K : Type}.
Variable split : K -> nat -> list K.
Variable optimize : (P -> res R) -> P -> OS -> res (P * OS).
Variable f : apply_type P ST K.
Variable normals : K -> nat -> nat -> list (list R).
Hypothesis splits : forall k n, length (split k n) = n.
Notation predictor := (predictor P ST K).
Notation rng := (p_rng P ST K).
Notation params := (p_params P ST K).
Notation states := (p_states P ST K).
Notation packaged := (p_packaged P ST K).
Notation cfg := (p_config P ST K).
Notation key_at := (key_at K split).
Notation apply := (apply_model P ST K split f).

(** * calls without a key *)

(** the key a predictor keeps after [i] calls *)
Fixpoint kept (k : K) (i : nat) : K := match i with O => k | S i => key_at (kept k i) 2 1 end.
(** the results of calls without a key, one after the other *)
Fixpoint calls (p : predictor) (xs : list (list (list R))) (model : option Z) : list (res (list (list R))) * predictor :=
  match xs with
  | [] => ([], p)
  | x :: xs => let '(r, p) := apply p x None model in let '(rs, p) := calls p xs model in (r :: rs, p)
  end.
Lemma kept_next k i : kept (key_at k 2 1) i = kept k (S i).
Proof. induction i as [|i IH]; [reflexivity|]. cbn [kept]. rewrite IH. reflexivity. Qed.
Lemma apply_same p q x k mi : params q = params p -> states q = states p -> fst (apply q x (Some k) mi) = fst (apply p x (Some k) mi).
Proof. intros E1 E2. unfold apply_model. cbn [fst]. rewrite E1, E2. reflexivity. Qed.

(** C92: in any number of calls without a key, the i-th uses the first key of a split of what the calls
    before it have kept, and only the predictor's key changes *)
Theorem apply_keys xs : forall (p : predictor) model,
  let '(rs, p') := calls p xs model in
  length rs = length xs /\
  (forall i x, nth_error xs i = Some x -> nth_error rs i = Some (fst (apply p x (Some (key_at (kept (rng p) i) 2 0)) model))) /\
  rng p' = kept (rng p) (length xs) /\ params p' = params p /\ states p' = states p /\ cfg p' = cfg p /\ packaged p' = packaged p /\
  p_num_models _ _ _ p' = p_num_models _ _ _ p /\ p_context_dim _ _ _ p' = p_context_dim _ _ _ p.
Proof.
  induction xs as [|x xs IH]; intros p model; cbn [calls].
  - repeat split; auto. intros [|i] x; discriminate.
  - destruct (apply p x None model) as [r p1] eqn:Ea.
    assert (Er : r = fst (apply p x (Some (key_at (rng p) 2 0)) model)) by (unfold apply_model in *; injection Ea as <- <-; reflexivity).
    assert (Q : rng p1 = key_at (rng p) 2 1 /\ params p1 = params p /\ states p1 = states p /\ cfg p1 = cfg p /\ packaged p1 = packaged p /\
      p_num_models _ _ _ p1 = p_num_models _ _ _ p /\ p_context_dim _ _ _ p1 = p_context_dim _ _ _ p)
      by (unfold apply_model in Ea; injection Ea as <- <-; cbn; auto 10).
    destruct Q as (Q1 & Q2 & Q3 & Q4 & Q5 & Q6 & Q7). specialize (IH p1 model). destruct (calls p1 xs model) as [rs p'].
    destruct IH as (L & N & I1 & I2 & I3 & I4 & I5 & I6 & I7). rewrite Q1, kept_next in I1.
    cbn [length]. repeat split; try congruence. intros [|i] y Hy; cbn in Hy |- *; [injection Hy as <-; rewrite Er; reflexivity|].
    rewrite (N i y Hy), Q1, kept_next. f_equal. apply apply_same; auto.
Qed.

(** * distillation *)

(** C93: a step of the distillation draws its inputs with the second of three keys, runs the network that is
    trained with the first, and the ensemble with the third *)
Theorem distill_step_keys ens_params ens_states batch_size data_mean data_scale s key s' l :
  distill_train_step P ST OS K split optimize f normals ens_params ens_states batch_size data_mean data_scale s key = Ok (s', l) ->
  let data := synthetic K normals (key_at key 3 1) batch_size data_mean data_scale in
  exists pred targets,
    distill_targets P ST K f ens_params ens_states data (key_at key 3 2) = Ok targets /\
    f (ts_params _ _ _ s) (ts_state _ _ _ s) (key_at key 3 0) data true = Ok (pred, ts_state _ _ _ s') /\
    l = mean (map (fun pt => squared_error (per_neighbor (fst pt)) (snd pt)) (combine pred targets)) /\
    optimize (fun p => fmap_res fst (distill_loss P ST K f p (ts_state _ _ _ s) ens_params ens_states data (key_at key 3 0) (key_at key 3 2)))
      (ts_params _ _ _ s) (ts_opt _ _ _ s) = Ok (ts_params _ _ _ s', ts_opt _ _ _ s').
Proof.
  intros H data. unfold distill_train_step in H. fold data in H.
  destruct (distill_loss _ _ _ _ _ _ _ _ data _ _) as [[l0 st]|e|] eqn:El; cbn [bind] in H; try discriminate.
  destruct (optimize _ _ _) as [[p o]|e|] eqn:Eo; cbn [bind fst snd] in H; try discriminate. injection H as <- <-. cbn [ts_state ts_params ts_opt].
  unfold distill_loss in El. destruct (distill_targets _ _ _ _ _ _ _ _) as [tg|e|] eqn:Et; cbn [bind] in El; try discriminate.
  destruct (f _ _ _ _ true) as [[pr st']|e|] eqn:Ef; cbn [bind] in El; try discriminate. injection El as <- <-. exists pr, tg. auto.
Qed.

Lemma last_nth {A} (l : list A) d : l <> [] -> last l d = nth (length l - 1) l d.
Proof.
  induction l as [|a l IH]; [congruence|]. intros _. destruct l as [|b l]; [reflexivity|].
  change (last (a :: b :: l) d) with (last (b :: l) d). rewrite IH by discriminate. cbn [length]. rewrite !Nat.sub_succ, !Nat.sub_0_r. reflexivity.
Qed.

(** C93: the batches of an epoch use the keys of one split, in order, and the next epoch starts from the
    last of them: a key the last batch has used *)
Theorem distill_epoch_keys ens_params ens_states batches batch_size data_mean data_scale s key s' key' l :
  distill_train_epoch P ST OS K split optimize f normals ens_params ens_states batches batch_size data_mean data_scale s key = Ok (s', key', l) ->
  key' = key_at key batches (batches - 1) /\
  exists losses, l = mean losses /\ length losses = batches /\
    exists st : nat -> train_state P ST OS, st 0%nat = s /\ st batches = s' /\
    forall i, (i < batches)%nat -> exists li, nth_error losses i = Some li /\
      distill_train_step P ST OS K split optimize f normals ens_params ens_states batch_size data_mean data_scale (st i) (key_at key batches i) = Ok (st (S i), li).
Proof.
  unfold distill_train_epoch. intros H. destruct (scan_out _ s (split key batches)) as [[s1 ls]|e|] eqn:Es; cbn [bind fst snd] in H; try discriminate.
  pose proof (splits key batches) as Ls. destruct (split key batches) as [|k ks] eqn:Ek; [discriminate|]. injection H as <- <- <-. split.
  { unfold LearnRates.key_at. rewrite Ek. change (last (k :: ks) k = nth (batches - 1) (k :: ks) key). rewrite last_nth by discriminate. rewrite Ls. apply nth_indep. rewrite Ls. cbn in Ls. lia. }
  exists ls. split; [reflexivity|]. unfold LearnRates.key_at. rewrite Ek. rewrite <- Ls. clear Ls Ek. revert Es. generalize (k :: ks). clear k ks. intros ks. revert s s1 ls.
  induction ks as [|k ks IH]; intros s s1 ls Es; cbn in Es.
  - injection Es as <- <-. split; [auto|]. exists (fun _ => s). repeat split; auto. cbn. intros; lia.
  - destruct (distill_train_step P ST OS K split optimize f normals ens_params ens_states batch_size data_mean data_scale s k) as [[s2 l2]|e|] eqn:E2; cbn [bind fst snd] in Es; try discriminate.
    destruct (scan_out _ s2 ks) as [[s3 l3]|e|] eqn:E3; cbn [bind fst snd] in Es; try discriminate. injection Es as <- <-.
    destruct (IH _ _ _ E3) as (L & st & S0 & S1 & N). split; [cbn; congruence|]. exists (fun i => match i with O => s | S i => st i end). split; [reflexivity|]. split; [exact S1|].
    intros [|i] Hi; cbn [nth]; [exists l2; split; [reflexivity|]; rewrite S0; auto|]. cbn in Hi. destruct (N i ltac:(lia)) as (li & E & F). eauto.
Qed.

(** * packaged models *)

(** C92: a model packaged with a fixed context takes rows without it, and puts it in front of them *)
Theorem package_fixed (p : predictor) c pk row q s : params p = [q] -> states p = [s] -> package_model P ST K p (Some c) = Ok pk ->
  (length c + length row = p_context_dim _ _ _ p -> forall r, (exists s', f q s (rng p) [c ++ row] false = Ok (r, s')) -> fst (call_package P ST K f p pk [row]) = Ok r)%nat /\
  (length c + length row <> p_context_dim _ _ _ p -> fst (call_package P ST K f p pk [row]) = Raise ValueError)%nat.
Proof.
  intros Ep Es H. unfold package_model in H. destruct (Nat.ltb_spec (p_context_dim _ _ _ p) (length c)) as [|Hc]; [discriminate|]. injection H as <-.
  unfold call_package. cbn [pk_traced pk_input pk_fixed]. destruct (Nat.eqb_spec (length row) (p_context_dim _ _ _ p - length c)) as [E|E]; cbn [negb]; split; intros L.
  - intros r (s' & Ef). rewrite Ep, Es. unfold run_traced, batch_apply. cbn [combine map_res fst snd map]. rewrite Ef. reflexivity.
  - lia.
  - lia.
  - reflexivity.
Qed.
(** C92: and without one, takes rows of the network's size *)
Theorem package_plain (p : predictor) pk row q s : params p = [q] -> states p = [s] -> package_model P ST K p None = Ok pk ->
  (length row = p_context_dim _ _ _ p -> forall r, (exists s', f q s (rng p) [row] false = Ok (r, s')) -> fst (call_package P ST K f p pk [row]) = Ok r)%nat /\
  (length row <> p_context_dim _ _ _ p -> fst (call_package P ST K f p pk [row]) = Raise ValueError)%nat.
Proof.
  intros Ep Es H. injection H as <-.
  unfold call_package. cbn [pk_traced pk_input pk_fixed]. destruct (Nat.eqb_spec (length row) (p_context_dim _ _ _ p)) as [E|E]; cbn [negb]; split; intros L; try congruence; try reflexivity.
  intros r (s' & Ef). rewrite Ep, Es. unfold run_traced, batch_apply. cbn [combine map_res fst snd map]. rewrite Ef. reflexivity.
Qed.

(** * loading *)

(** C92: parameters are loaded if asked for, the configuration if asked for, the packaged model always *)
Theorem load_chooses (q : predictor) dir step (load_params load_config : bool) q1 :
  load P ST K q dir step load_params load_config = (Ok tt, q1) ->
  (if load_params then sv_params _ _ _ dir step = Some (params q1) else params q1 = params q) /\
  (if load_config then sv_config _ _ _ dir = Some (cfg q1) else cfg q1 = cfg q) /\
  (exists m, sv_model _ _ _ dir = Some m /\ packaged q1 = Some (mkpackage _ _ _ (fst (fst m)) (snd (fst m)) (Some (snd m)))) /\
  states q1 = states q /\ rng q1 = rng q /\ p_num_models _ _ _ q1 = p_num_models _ _ _ q /\ p_context_dim _ _ _ q1 = p_context_dim _ _ _ q.
Proof.
  unfold load. destruct load_params.
  - destruct (sv_params _ _ _ dir step) as [ps|]; [|discriminate]. destruct (sv_model _ _ _ dir) as [[[a b] t]|]; [|discriminate].
    destruct load_config; [destruct (sv_config _ _ _ dir) as [cf|]; [|discriminate]|]; intros E; injection E as <-; cbn; repeat split; auto; eexists; (split; [reflexivity|reflexivity]).
  - destruct (sv_model _ _ _ dir) as [[[a b] t]|]; [|discriminate].
    destruct load_config; [destruct (sv_config _ _ _ dir) as [cf|]; [|discriminate]|]; intros E; injection E as <-; cbn; repeat split; auto; eexists; (split; [reflexivity|reflexivity]).
Qed.
End Keys.
Print Assumptions apply_keys.
Print Assumptions distill_step_keys.
Print Assumptions distill_epoch_keys.
Print Assumptions package_fixed.
Print Assumptions package_plain.
Print Assumptions load_chooses.

(** * keys that are split into new ones *)
Definition path_split (k : list nat) (n : nat) : list (list nat) := map (fun i => i :: k) (seq 0 n).
Lemma path_key k n i : (i < n)%nat -> key_at (list nat) path_split k n i = i :: k.
Proof. intros H. unfold key_at, path_split. rewrite (nth_indep _ k (0%nat :: k)) by (rewrite map_length, seq_length; auto). rewrite (map_nth (fun i => i :: k)), seq_nth by auto. reflexivity. Qed.
Lemma kept_path k i : kept path_split k i = repeat 1%nat i ++ k.
Proof. induction i as [|i IH]; [reflexivity|]. cbn [kept]. rewrite path_key by lia. rewrite IH. reflexivity. Qed.

(** C92: if splitting gives new keys, no two calls without a key use the same one *)
Theorem apply_keys_fresh k i j : key_at (list nat) path_split (kept path_split k i) 2 0 = key_at (list nat) path_split (kept path_split k j) 2 0 -> i = j.
Proof. rewrite !path_key by lia. rewrite !kept_path. intros E. injection E as E. apply (f_equal (@length nat)) in E. rewrite !app_length, !repeat_length in E. lia. Qed.
Print Assumptions apply_keys_fresh.

(** a network that adds its parameter to every entry; two calls and a fixed context *)
Example keys_nonvacuous :
  let f : apply_type R unit (list nat) := fun p s _ x _ => Ok (map (map (fun y => y + p)) x, s) in
  let p := mkpredictor R unit (list nat) [2] [tt] [] 1 3 (mkconfig 1 false false 1 1 1 1 false (1/2)) None in
  p_rng _ _ _ (snd (calls path_split f p [[[1; 2; 3]]; [[4; 5; 6]]] None)) = [1; 1]%nat /\
  exists pk, package_model _ _ _ p (Some [1]) = Ok pk /\ fst (call_package _ _ _ f p pk [[3; 4]]) = Ok [[1 + 2; 3 + 2; 4 + 2]].
Proof. split; [reflexivity|]. eexists. split; reflexivity. Qed.
