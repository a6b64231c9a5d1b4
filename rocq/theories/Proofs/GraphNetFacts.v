(** Facts about the graph network *)
From Coq Require Import Reals List Arith Bool Permutation Lia Lra.
From Verif Require Import Base.Prelude Model.LearningSteps Model.GraphNet Proofs.BaseFacts Spec.GraphNet.
Import ListNotations.
Open Scope R_scope.
Open Scope list_scope.

(** * map2, sums *)
Lemma map2_app {A B C} (f : A -> B -> C) l l' m m' : length l = length m -> map2 f (l ++ l') (m ++ m') = map2 f l m ++ map2 f l' m'.
Proof. revert m. induction l as [|x l IH]; intros [|y m] H; try discriminate; [reflexivity|]. cbn. rewrite IH by (injection H; auto). reflexivity. Qed.
Lemma map2_maps {A B C D} (f : A -> B -> C) (g : D -> A) (h : D -> B) l : map2 f (map g l) (map h l) = map (fun x => f (g x) (h x)) l.
Proof. induction l; cbn; [|rewrite IHl]; reflexivity. Qed.
Lemma map2_index {A B} (f : nat -> A -> B) (g : A -> B) l : forall s, (forall i x, (s <= i < s + length l)%nat -> In x l -> f i x = g x) -> map2 f (seq s (length l)) l = map g l.
Proof.
  induction l as [|x l IH]; intros s H; [reflexivity|]. cbn. rewrite H by (cbn; intuition lia). rewrite IH; [reflexivity|]. intros i y Hi Hy. apply H; [cbn; lia|right; auto].
Qed.
Lemma map2_length {A B C} (f : A -> B -> C) l m : length l = length m -> length (map2 f l m) = length l.
Proof. revert m. induction l as [|x l IH]; intros [|y m] H; try discriminate; [reflexivity|]. cbn. rewrite IH by (injection H; auto). reflexivity. Qed.
Lemma vadd_comm a b : vadd a b = vadd b a.
Proof. unfold vadd. revert b. induction a as [|x a IH]; intros [|y b]; cbn; auto. rewrite IH, Rplus_comm. reflexivity. Qed.
Lemma vadd_assoc a b c : vadd a (vadd b c) = vadd (vadd a b) c.
Proof. unfold vadd. revert b c. induction a as [|x a IH]; intros [|y b] [|z c]; cbn; auto. rewrite IH, Rplus_assoc. reflexivity. Qed.
Lemma vsum_perm width l m : Permutation l m -> vsum width l = vsum width m.
Proof.
  intros P. unfold vsum. induction P as [|x l m P IH|x y l|l m k P1 IH1 P2 IH2]; cbn [fold_right]; [reflexivity|rewrite IH; reflexivity| |congruence].
  rewrite !vadd_assoc, (vadd_comm y x). reflexivity.
Qed.
Lemma vmean_perm width l m : Permutation l m -> vmean width l = vmean width m.
Proof. intros P. unfold vmean. rewrite (vsum_perm _ _ _ P), (Permutation_length P). reflexivity. Qed.
Lemma filter_perm {A} (f : A -> bool) l m : Permutation l m -> Permutation (filter f l) (filter f m).
Proof.
  intros P. induction P as [|x l m P IH|x y l|l m k P1 IH1 P2 IH2]; cbn; [constructor| | |econstructor; eauto].
  - destruct (f x); auto.
  - destruct (f x), (f y); auto. constructor.
Qed.

(** * The network and the specification *)
Section Sim.
Variables (width : nat) (p : gparams) (n : nat) (links : list (nat * nat)) (edge_input : nat * nat -> vec) (node_input : nat -> vec).
Variable Hlinks : Forall (linked n) links.
Notation lat := (latent width p n links edge_input node_input).
Definition matches (padding k : nat) (g : graph) : Prop :=
  g_points g = n /\ g_real g = length links /\ (forall i, (i < n)%nat -> g_nodes g i = of_point (lat k) i) /\ fst (g_globals g) = of_whole (lat k) /\
  exists pad, g_edges g = map (fun e => (e, of_link (lat k) e)) links ++ pad /\ Forall (fun e => fst e = (n, n)) pad /\ length pad = padding.

Lemma not_sent i pad : (i < n)%nat -> Forall (fun e : nat * nat * vec => fst e = (n, n)) pad -> sent_by i pad = [] /\ received_by i pad = [].
Proof.
  intros Hi H. unfold sent_by, received_by. induction H as [|[[r s] v] l E H IH]; [split; reflexivity|]. cbn in E. injection E as -> ->. cbn. replace (n =? i)%nat with false by (symmetry; apply Nat.eqb_neq; lia). exact IH.
Qed.
Lemma sent_app i l m : sent_by i (l ++ m) = sent_by i l ++ sent_by i m /\ received_by i (l ++ m) = received_by i l ++ received_by i m.
Proof. unfold sent_by, received_by. rewrite !filter_app, !map_app. auto. Qed.
Lemma sent_links i (f : nat * nat -> vec) l :
  sent_by i (map (fun e => (e, f e)) l) = map f (filter (fun l => (snd l =? i)%nat) l) /\
  received_by i (map (fun e => (e, f e)) l) = map f (filter (fun l => (fst l =? i)%nat) l).
Proof. unfold sent_by, received_by. induction l as [|[r s] l [IH1 IH2]]; [split; reflexivity|]. cbn. destruct (s =? i)%nat, (r =? i)%nat; cbn; rewrite ?IH1, ?IH2; auto. Qed.

Lemma step_matches padding k g0 g : matches padding 0 g0 -> matches padding k g -> matches padding (S k) (propagate width p k (concatenate_graphs g g0)).
Proof.
  intros (P0 & R0 & N0 & W0 & pad0 & E0 & D0 & L0) (P & R & N & W & pad & E & D & L).
  set (gi := concatenate_graphs g g0). unfold matches.
  assert (Ei : exists padi, g_edges gi = map (fun e => (e, of_link (lat k) e ++ of_link (encoded p edge_input node_input) e)) links ++ padi /\ Forall (fun e => fst e = (n, n)) padi /\ length padi = padding).
  { exists (map2 (fun x y => (fst x, snd x ++ snd y)) pad pad0). unfold gi, concatenate_graphs. cbn [g_edges]. rewrite E, E0, map2_app by (rewrite !map_length; reflexivity). rewrite map2_maps. split; [reflexivity|]. split; [|rewrite map2_length; [exact L|exact (eq_trans L (eq_sym L0))]].
    clear - D. revert pad0. induction D as [|x l Hx D IH]; intros [|y m]; cbn; constructor; auto. }
  destruct Ei as (padi & Ei & Di & Li).
  assert (Ni : forall i, (i < n)%nat -> g_nodes gi i = of_point (lat k) i ++ of_point (encoded p edge_input node_input) i). { intros i Hi. unfold gi. cbn. rewrite N, N0 by auto. reflexivity. }
  assert (Wi : fst (g_globals gi) = of_whole (lat k) ++ of_whole (encoded p edge_input node_input)). { unfold gi. cbn. rewrite W, W0. reflexivity. }
  assert (Pi : g_points gi = n) by (unfold gi; cbn; auto). assert (Ri : g_real gi = length links) by (unfold gi; cbn; auto). clearbody gi.
  assert (En : exists padn, new_edges p k gi = map (fun e => (e, of_link (lat (S k)) e)) links ++ padn /\ Forall (fun e => fst e = (n, n)) padn /\ length padn = padding).
  { unfold new_edges. rewrite Ei, app_length, map_length, seq_app, map2_app by (rewrite seq_length, map_length; reflexivity). eexists. split; [f_equal|].
    - set (m := map _ links). rewrite <- (map_length (fun e => (e, of_link (lat k) e ++ of_link (encoded p edge_input node_input) e)) links). fold m.
      rewrite (map2_index _ (fun e => (fst e, of_link (lat (S k)) (fst e)))).
      + unfold m. rewrite map_map. reflexivity.
      + unfold m. rewrite map_length. intros i e Hi He. apply in_map_iff in He. destruct He as ([r s] & <- & Hin). rewrite Forall_forall in Hlinks. pose proof (Hlinks _ Hin) as [Hr Hs]. cbn in Hr, Hs. cbn [fst snd]. rewrite !Ni by auto.
        rewrite Ri. replace (i <? length links)%nat with true by (symmetry; apply Nat.ltb_lt; lia). unfold global_of. rewrite Wi. reflexivity.
    - set (s := (0 + length links)%nat). clearbody s. rewrite <- Li. split.
      + generalize (g_real gi), s. clear - Di. intros m s. revert s. induction Di as [|[[r t] v] l E D IH]; intros s; cbn; constructor; auto.
      + rewrite map2_length; rewrite seq_length; reflexivity. }
  destruct En as (padn & En & Dn & Ln).
  assert (Nn : forall i, (i < n)%nat -> new_node width p k gi i = of_point (lat (S k)) i).
  { intros i Hi. unfold new_node. rewrite En, Ni by auto. destruct (not_sent i padn Hi Dn) as [S1 S2]. destruct (sent_app i (map (fun e => (e, of_link (lat (S k)) e)) links) padn) as [-> ->]. rewrite S1, S2, !app_nil_r. destruct (sent_links i (of_link (lat (S k))) links) as [-> ->].
    rewrite Pi. replace (i <? n)%nat with true by (symmetry; apply Nat.ltb_lt; lia). unfold global_of. rewrite Wi. reflexivity. }
  unfold propagate. cbn [g_points g_real g_nodes g_edges g_globals fst]. split; [auto|]. split; [auto|]. split; [auto|]. split; [|exists padn; auto].
  rewrite En, Ri, firstn_app, firstn_all2 by (rewrite map_length; lia). rewrite map_length, Nat.sub_diag. cbn [firstn]. rewrite app_nil_r, map_map, Wi, Pi. cbn [snd].
  replace (map (new_node width p k gi) (seq 0 n)) with (map (of_point (lat (S k))) (seq 0 n)); [reflexivity|]. apply map_ext_in. intros i Hi. apply in_seq in Hi. symmetry. apply Nn. lia.
Qed.
Lemma encoder_matches padding recurrences g : matches padding 0 (encode p g) -> matches padding recurrences (encoder_call width recurrences p g).
Proof.
  intros H. unfold encoder_call. induction recurrences as [|k IH]; [exact H|]. rewrite seq_S, fold_left_app. cbn [fold_left Nat.add]. apply step_matches; auto.
Qed.
Lemma encode_matches g pad : g_points g = n -> g_real g = length links -> (forall i, (i < n)%nat -> g_nodes g i = node_input i) -> fst (g_globals g) = [0] ->
  g_edges g = map (fun e => (e, edge_input e)) links ++ pad -> Forall (fun e => fst e = (n, n)) pad -> matches (length pad) 0 (encode p g).
Proof.
  intros P R N W E D. unfold matches, encode. cbn [g_points g_real g_nodes g_edges g_globals fst]. split; [auto|]. split; [auto|]. split; [intros i Hi; rewrite N by auto; reflexivity|]. split; [rewrite W; reflexivity|].
  rewrite E, map_app, map_map. eexists. split; [reflexivity|]. split; [|apply map_length]. apply Forall_forall. intros x Hx. apply in_map_iff in Hx. destruct Hx as (y & <- & Hy). rewrite Forall_forall in D. cbn. auto.
Qed.
End Sim.

(** * renaming *)
Section Rename.
Variables (width : nat) (p : gparams) (n : nat) (sigma : nat -> nat).
Variable Hs : renames n sigma.
Definition rename (e : nat * nat) : nat * nat := (sigma (fst e), sigma (snd e)).
Variables (links links' : list (nat * nat)) (ei ei' : nat * nat -> vec) (ni ni' : nat -> vec).
Variable Hl : Forall (linked n) links.
Variable Hp : Permutation links' (map rename links).
Variable He : forall e, linked n e -> ei' (rename e) = ei e.
Variable Hn : forall i, (i < n)%nat -> ni' (sigma i) = ni i.

Lemma rename_seq : Permutation (map sigma (seq 0 n)) (seq 0 n).
Proof.
  destruct Hs as [H1 H2]. apply NoDup_Permutation_bis.
  - assert (G : forall l, NoDup l -> (forall i, In i l -> (i < n)%nat) -> NoDup (map sigma l)).
    { induction l as [|x l IH]; intros ND Hb; [constructor|]. inversion ND; subst. cbn. constructor; [|apply IH; auto; intros; apply Hb; right; auto]. intros Hin. apply in_map_iff in Hin. destruct Hin as (y & E & Hy). apply H2 in E; [subst; auto|apply Hb; right; auto|apply Hb; left; auto]. }
    apply G; [apply seq_NoDup|]. intros i Hi. apply in_seq in Hi. lia.
  - rewrite map_length. auto.
  - intros i Hi. apply in_map_iff in Hi. destruct Hi as (j & <- & Hj). apply in_seq in Hj. apply in_seq. specialize (H1 j). lia.
Qed.
Lemma rename_filter (sel : nat * nat -> nat) i (f f' : nat * nat -> vec) : (sel = fst \/ sel = snd) -> (i < n)%nat -> (forall e, linked n e -> f' (rename e) = f e) ->
  vsum width (map f' (filter (fun l => (sel l =? sigma i)%nat) links')) = vsum width (map f (filter (fun l => (sel l =? i)%nat) links)).
Proof.
  intros Hsel Hi Hf. rewrite (vsum_perm _ _ (map f' (filter (fun l => (sel l =? sigma i)%nat) (map rename links)))) by (apply Permutation_map, filter_perm, Hp). f_equal.
  clear - Hs Hl Hf Hsel Hi. destruct Hs as [H1 H2]. induction Hl as [|e l H Hl' IH]; [reflexivity|]. cbn [map filter].
  replace (sel (rename e) =? sigma i)%nat with (sel e =? i)%nat.
  - destruct (sel e =? i)%nat; cbn [map]; rewrite IH by auto; rewrite ?Hf by auto; reflexivity.
  - destruct e as [r s]. destruct H as [Hr Hss]. cbn in Hr, Hss. destruct Hsel as [-> | ->]; cbn [fst snd rename];
    [destruct (Nat.eqb_spec r i) as [->|Ne]|destruct (Nat.eqb_spec s i) as [->|Ne]]; symmetry; try apply Nat.eqb_refl; apply Nat.eqb_neq; intros C; apply H2 in C; auto.
Qed.
Lemma rename_latent k :
  (forall e, linked n e -> of_link (latent width p n links' ei' ni' k) (rename e) = of_link (latent width p n links ei ni k) e) /\
  (forall i, (i < n)%nat -> of_point (latent width p n links' ei' ni' k) (sigma i) = of_point (latent width p n links ei ni k) i) /\
  of_whole (latent width p n links' ei' ni' k) = of_whole (latent width p n links ei ni k).
Proof.
  induction k as [|k (IE & IN & IW)].
  - cbn. split; [intros; rewrite He; auto|]. split; [intros; rewrite Hn; auto|reflexivity].
  - set (A' := latent width p n links' ei' ni' (S k)). set (A := latent width p n links ei ni (S k)).
    assert (E : forall e, linked n e -> of_link A' (rename e) = of_link A e).
    { intros e [Hr Hss]. unfold A', A. cbn [latent of_link]. rewrite IE by (split; auto). unfold encoded. cbn [of_link of_point of_whole]. rewrite He by (split; auto). cbn [rename fst snd]. rewrite !IN, !Hn, IW by auto. reflexivity. }
    assert (N : forall i, (i < n)%nat -> of_point A' (sigma i) = of_point A i).
    { intros i Hi. unfold A', A. cbn [latent of_point]. fold A' A. change (fun l => edge_fn p k ((of_link (latent width p n links' ei' ni' k) l ++ of_link (encoded p ei' ni') l) ++ (of_point (latent width p n links' ei' ni' k) (snd l) ++ of_point (encoded p ei' ni') (snd l)) ++ (of_point (latent width p n links' ei' ni' k) (fst l) ++ of_point (encoded p ei' ni') (fst l)) ++ of_whole (latent width p n links' ei' ni' k) ++ of_whole (encoded p ei' ni'))) with (of_link A').
      change (fun l => edge_fn p k ((of_link (latent width p n links ei ni k) l ++ of_link (encoded p ei ni) l) ++ (of_point (latent width p n links ei ni k) (snd l) ++ of_point (encoded p ei ni) (snd l)) ++ (of_point (latent width p n links ei ni k) (fst l) ++ of_point (encoded p ei ni) (fst l)) ++ of_whole (latent width p n links ei ni k) ++ of_whole (encoded p ei ni))) with (of_link A).
      rewrite (rename_filter snd i (of_link A) (of_link A')), (rename_filter fst i (of_link A) (of_link A')) by auto. rewrite IN, IW by auto. unfold encoded. cbn [of_point of_whole]. rewrite Hn by auto. reflexivity. }
    split; [auto|]. split; [auto|].
    change (of_whole A') with (global_fn p k (vsum width (map (of_point A') (seq 0 n)) ++ vsum width (map (of_link A') links') ++ of_whole (latent width p n links' ei' ni' k) ++ global_encoder p [0])).
    change (of_whole A) with (global_fn p k (vsum width (map (of_point A) (seq 0 n)) ++ vsum width (map (of_link A) links) ++ of_whole (latent width p n links ei ni k) ++ global_encoder p [0])).
    rewrite IW. f_equal. f_equal; [|f_equal].
    + rewrite <- (vsum_perm _ (map (of_point A') (map sigma (seq 0 n)))) by (apply Permutation_map, rename_seq). rewrite map_map. f_equal. apply map_ext_in. intros i Hi. apply in_seq in Hi. apply N. lia.
    + rewrite (vsum_perm _ _ (map (of_link A') (map rename links))) by (apply Permutation_map, Hp). rewrite map_map. f_equal. apply map_ext_in. intros e Hin. rewrite Forall_forall in Hl. apply E; auto.
Qed.
End Rename.
