(** C108: names in checkpoints of the graph network *)
From Coq Require Import String Ascii List Bool Arith Lia.
From Verif Require Import Base.Prelude Model.CheckpointKeys Spec.CheckpointKeys.
Import ListNotations.

(** * str.replace *)
Lemma starts_with_iff w : forall s, starts_with w s = true <-> exists t, s = w ++ t.
Proof.
  induction w as [|a w IH]; intros s; cbn; [split; eauto|]. destruct s as [|b s].
  - split; [discriminate|]. intros (t & E). discriminate.
  - rewrite andb_true_iff, IH, Ascii.eqb_eq. split.
    + intros (-> & t & ->). eauto.
    + intros (t & E). injection E as -> ->. eauto.
Qed.
Lemma starts_with_app w t : starts_with w (w ++ t) = true.
Proof. apply starts_with_iff. eauto. Qed.
Lemma replace_skip l r s : forall k, replace_from l r k s = replace l r (skipn k s).
Proof. induction s as [|c s IH]; intros [|k]; try reflexivity. apply IH. Qed.
Lemma replace_nil l r : replace l r [] = [].
Proof. reflexivity. Qed.
Lemma replace_match l r t : l <> [] -> replace l r (l ++ t) = r ++ replace l r t.
Proof.
  intros N. destruct l as [|a l]; [congruence|]. unfold replace at 1. cbn [app replace_from]. change (a :: l ++ t) with ((a :: l) ++ t). rewrite starts_with_app. f_equal.
  rewrite replace_skip. f_equal. cbn [length]. rewrite Nat.sub_succ, Nat.sub_0_r. rewrite skipn_app, skipn_all, Nat.sub_diag. reflexivity.
Qed.
Lemma replace_step l r c s : starts_with l (c :: s) = false -> replace l r (c :: s) = c :: replace l r s.
Proof. intros E. unfold replace at 1. cbn [replace_from]. rewrite E. reflexivity. Qed.

(** replacing one character *)
Lemma replace_char c r s : replace [c] r s = flat_map (fun x => if Ascii.eqb c x then r else [x]) s.
Proof.
  induction s as [|x s IH]; [reflexivity|]. cbn [flat_map]. rewrite <- IH. destruct (Ascii.eqb_spec c x) as [->|N].
  - apply (replace_match [x] r s). discriminate.
  - apply replace_step. cbn. rewrite (proj2 (Ascii.eqb_neq c x) N). reflexivity.
Qed.
Lemma replace_char_match c r s : replace [c] r (c :: s) = r ++ replace [c] r s.
Proof. apply (replace_match [c] r s). discriminate. Qed.
Lemma replace_char_app c r s t : replace [c] r (s ++ t) = replace [c] r s ++ replace [c] r t.
Proof. rewrite !replace_char. apply flat_map_app. Qed.
Lemma replace_char_free c r s : ~ In c s -> replace [c] r s = s.
Proof.
  intros N. rewrite replace_char. induction s as [|x s IH]; [reflexivity|]. cbn. destruct (Ascii.eqb_spec c x) as [->|]; [destruct N; left; auto|]. cbn. f_equal. apply IH. intros H. apply N. right. auto.
Qed.

(** a proper ending of [w] and the beginning of [v] agree *)
Definition overlap (w v : name) : Prop := exists u r, u <> [] /\ r <> [] /\ w = u ++ r /\ (starts_with r v = true \/ starts_with v r = true).
(** some ending of [w], or all of it, and the beginning of [v] agree *)
Definition meet (w v : name) : Prop := exists u r, r <> [] /\ w = u ++ r /\ (starts_with r v = true \/ starts_with v r = true).

Lemma app_compare {A} (a b c d : list A) : a ++ b = c ++ d -> (exists t, a = c ++ t /\ d = t ++ b) \/ (exists t, c = a ++ t /\ b = t ++ d).
Proof.
  revert c. induction a as [|x a IH]; intros c E; cbn in E.
  - right. exists c. auto.
  - destruct c as [|y c]; cbn in E.
    + left. exists (x :: a). auto.
    + injection E as -> E. destruct (IH c E) as [(t & -> & ->)|(t & -> & ->)]; [left|right]; exists t; auto.
Qed.

(** the part of a name before a character *)
Lemma before c (s : name) : ~ In c s \/ exists u t, s = u ++ c :: t /\ ~ In c u.
Proof.
  induction s as [|x s IH]; [left; auto|]. destruct (ascii_dec x c) as [->|N]; [right; exists [], s; auto|].
  destruct IH as [H|(u & t & -> & H)]; [left; intros [E|E]; auto|right; exists (x :: u), t; split; auto; intros [E|E]; auto].
Qed.

(** putting [v] for a character does not make a [w] *)
Lemma no_new c v w x s : c <> x -> ~ In c w -> ~ overlap w v -> starts_with w (x :: s) = false -> starts_with w (x :: replace [c] v s) = false.
Proof.
  intros Nx Nw No E. destruct (starts_with w (x :: replace [c] v s)) eqn:E'; auto. exfalso. apply starts_with_iff in E'. destruct E' as (t & E').
  assert (F : forall t, x :: s <> w ++ t) by (intros t' E0; assert (starts_with w (x :: s) = true) by (apply starts_with_iff; eauto); congruence).
  destruct (before c s) as [H|(u & r & -> & H)]; [rewrite replace_char_free in E' by auto; eapply F; eauto|].
  rewrite replace_char_app, replace_char_free in E' by auto.
  replace (replace [c] v (c :: r)) with (v ++ replace [c] v r) in E' by (symmetry; apply replace_char_match).
  change (x :: u ++ v ++ replace [c] v r) with ((x :: u) ++ v ++ replace [c] v r) in E'. apply app_compare in E'. destruct E' as [(t' & E1 & E2)|(t' & E1 & E2)].
  - apply (F (t' ++ c :: r)). change (x :: u ++ c :: r) with ((x :: u) ++ c :: r). rewrite E1, <- app_assoc. reflexivity.
  - destruct t' as [|y t']; [apply (F (c :: r)); rewrite E1, app_nil_r; reflexivity|].
    apply No. exists (x :: u), (y :: t'). split; [discriminate|]. split; [discriminate|]. split; [exact E1|].
    apply app_compare in E2. destruct E2 as [(t2 & E2 & _)|(t2 & E2 & _)]; [left|right]; apply starts_with_iff; eauto.
Qed.

(** what one replacement and its inverse do *)
Lemma undo_one c w s : w <> [] -> ~ In c w -> ~ overlap w w -> replace w [c] (replace [c] w s) = replace w [c] s.
Proof.
  intros N Nc No. remember (length s) as n eqn:En. assert (L : (length s <= n)%nat) by lia. clear En. revert s L. induction n as [|n IH]; intros s L.
  { destruct s; [reflexivity|cbn in L; lia]. }
  destruct s as [|x s]; [reflexivity|]. cbn in L. destruct (ascii_dec c x) as [<-|Nx].
  - rewrite replace_char_match. rewrite replace_match by auto. rewrite IH by lia. symmetry. apply (replace_step w [c] c s).
    destruct (starts_with w (c :: s)) eqn:E; auto. apply starts_with_iff in E. destruct E as (t & E). destruct w as [|y w]; [congruence|]. injection E as <- _. destruct Nc. left. auto.
  - destruct (starts_with w (x :: s)) eqn:E.
    + apply starts_with_iff in E. destruct E as (t & E). rewrite E. rewrite replace_char_app, replace_char_free by auto. rewrite !replace_match by auto. f_equal. apply IH.
      apply (f_equal (@length ascii)) in E. rewrite app_length in E. cbn in E. destruct w; [congruence|]. cbn in E. lia.
    + rewrite (replace_step w [c] x s E). rewrite (replace_step [c] w x s) by (cbn; rewrite (proj2 (Ascii.eqb_neq c x) Nx); reflexivity).
      rewrite replace_step by (apply no_new; auto). f_equal. apply IH. lia.
Qed.

Lemma replace_over w c v t : ~ meet v w -> replace w [c] (v ++ t) = v ++ replace w [c] t.
Proof.
  intros H. induction v as [|x v IH]; [reflexivity|]. cbn [app]. rewrite replace_step.
  - f_equal. apply IH. intros (u & r & Hr & E & F). apply H. exists (x :: u), r. split; auto. split; [cbn; congruence|auto].
  - destruct (starts_with w (x :: v ++ t)) eqn:E; auto. exfalso. apply starts_with_iff in E. destruct E as (t' & E). change (x :: v ++ t) with ((x :: v) ++ t) in E.
    apply H. exists [], (x :: v). split; [discriminate|]. split; [reflexivity|]. apply app_compare in E. destruct E as [(t2 & E & _)|(t2 & E & _)]; [right|left]; apply starts_with_iff; eauto.
Qed.

(** two replacements do not interfere *)
Lemma replace_commute c w d v s : w <> [] -> c <> d -> ~ In d w -> ~ overlap w v -> ~ meet v w ->
  replace w [c] (replace [d] v s) = replace [d] v (replace w [c] s).
Proof.
  intros N Ncd Nd No Nm. remember (length s) as n eqn:En. assert (L : (length s <= n)%nat) by lia. clear En. revert s L. induction n as [|n IH]; intros s L.
  { destruct s; [reflexivity|cbn in L; lia]. }
  destruct s as [|x s]; [reflexivity|]. cbn in L. destruct (ascii_dec d x) as [<-|Nx].
  - rewrite replace_char_match. rewrite replace_over by auto. rewrite IH by lia.
    rewrite (replace_step w [c] d s); [symmetry; apply replace_char_match|].
    destruct (starts_with w (d :: s)) eqn:E; auto. apply starts_with_iff in E. destruct E as (t & E). destruct w as [|y w]; [congruence|]. injection E as <- _. destruct Nd. left. auto.
  - destruct (starts_with w (x :: s)) eqn:E.
    + apply starts_with_iff in E. destruct E as (t & E). rewrite E. rewrite replace_char_app, (replace_char_free d v w) by auto. rewrite !replace_match by auto.
      rewrite replace_char_app, (replace_char_free d v [c]) by (intros [E1|[]]; congruence). f_equal. apply IH.
      apply (f_equal (@length ascii)) in E. rewrite app_length in E. cbn in E. destruct w; [congruence|]. cbn in E. lia.
    + rewrite (replace_step w [c] x s E). rewrite !(replace_step [d] v x) by (cbn; rewrite (proj2 (Ascii.eqb_neq d x) Nx); reflexivity).
      rewrite replace_step by (apply no_new; auto). f_equal. apply IH. lia.
Qed.

(** replacing a longer name by a character shortens *)
Lemma replace_length w c s : (2 <= length w)%nat -> (length (replace w [c] s) <= length s)%nat /\ (occurs w s <-> length (replace w [c] s) <> length s).
Proof.
  intros N. assert (Nw : w <> []) by (intros ->; cbn in N; lia).
  remember (length s) as n eqn:En. assert (L : (length s <= n)%nat) by lia. rewrite En. clear En. revert s L. induction n as [|n IH]; intros s L.
  { destruct s; [|cbn in L; lia]. cbn. split; [lia|]. split; [|lia]. intros (a & b & E). symmetry in E. apply app_eq_nil in E. destruct E as [_ E]. apply app_eq_nil in E. tauto. }
  destruct s as [|x s].
  { cbn. split; [lia|]. split; [|lia]. intros (a & b & E). symmetry in E. apply app_eq_nil in E. destruct E as [_ E]. apply app_eq_nil in E. tauto. }
  cbn in L. destruct (starts_with w (x :: s)) eqn:E.
  - apply starts_with_iff in E. destruct E as (t & E). rewrite E, replace_match by auto. cbn [app length]. rewrite app_length.
    assert (Lt : (length t <= n)%nat) by (apply (f_equal (@length ascii)) in E; rewrite app_length in E; cbn in E; lia).
    destruct (IH t Lt) as [I _]. split; [lia|]. split; [lia|]. intros _. exists [], t. reflexivity.
  - rewrite replace_step by auto. cbn [length]. destruct (IH s ltac:(lia)) as [I1 I2]. split; [lia|]. split.
    + intros (a & b & Es). destruct a as [|y a]; cbn in Es; [exfalso; assert (starts_with w (x :: s) = true) by (apply starts_with_iff; eauto); congruence|].
      injection Es as -> ->. assert (length (replace w [c] (a ++ w ++ b)) <> length (a ++ w ++ b)); [|lia]. apply I2. exists a, b. auto.
    + intros H. assert (H' : length (replace w [c] s) <> length s) by lia. apply I2 in H'. destruct H' as (a & b & ->). exists (x :: a), b. auto.
Qed.

Lemma replace_free w c s : (2 <= length w)%nat -> ~ occurs w s -> replace w [c] s = s.
Proof.
  intros N. assert (Nw : w <> []) by (intros ->; cbn in N; lia). induction s as [|x s IH]; intros H; [reflexivity|].
  rewrite replace_step.
  - f_equal. apply IH. intros (a & b & ->). apply H. exists (x :: a), b. auto.
  - destruct (starts_with w (x :: s)) eqn:E; auto. apply starts_with_iff in E. destruct E as (t & E). destruct H. exists [], t. auto.
Qed.

(** the names at hand do not overlap: decided by trying every ending *)
Fixpoint endings (w : name) : list (name * name) :=
  ([], w) :: match w with [] => [] | a :: w => map (fun ur => (a :: fst ur, snd ur)) (endings w) end.
Lemma endings_all u r : In (u, r) (endings (u ++ r)).
Proof.
  induction u as [|a u IH]; cbn.
  - destruct r; left; reflexivity.
  - right. apply in_map_iff. exists (u, r). auto.
Qed.
Definition clash (proper : bool) (w v : name) : bool :=
  existsb (fun ur => (if proper then negb (name_eqb (fst ur) []) else true) && negb (name_eqb (snd ur) []) && (starts_with (snd ur) v || starts_with v (snd ur))) (endings w).
Lemma name_eqb_eq a b : name_eqb a b = true <-> a = b.
Proof. unfold name_eqb. destruct (list_eq_dec ascii_dec a b); split; auto; discriminate. Qed.
Lemma name_eqb_neq a b : a <> b -> name_eqb a b = false.
Proof. intros N. destruct (name_eqb a b) eqn:E; auto. apply name_eqb_eq in E. congruence. Qed.
Lemma clash_overlap w v : clash true w v = false -> ~ overlap w v.
Proof.
  intros E (u & r & Hu & Hr & -> & H). assert (clash true (u ++ r) v = true); [|congruence]. apply existsb_exists. exists (u, r). split; [apply endings_all|].
  cbn [fst snd]. rewrite !name_eqb_neq by auto. cbn. apply orb_true_iff. auto.
Qed.
Lemma clash_meet w v : clash false w v = false -> ~ meet w v.
Proof.
  intros E (u & r & Hr & -> & H). assert (clash false (u ++ r) v = true); [|congruence]. apply existsb_exists. exists (u, r). split; [apply endings_all|].
  cbn [fst snd]. rewrite !name_eqb_neq by auto. cbn. apply orb_true_iff. auto.
Qed.

(** * names *)
Definition saved_name (k : name) : name := replace tilde dummy_tilde (replace slash dummy_slash k).
Definition restored_name (k : name) : name := replace dummy_tilde tilde (replace dummy_slash slash k).

Lemma restored_saved k : restored_name (saved_name k) = restored_name k.
Proof.
  unfold restored_name, saved_name, slash, tilde, name_of. cbn [list_ascii_of_string].
  rewrite replace_commute; try (apply clash_overlap; reflexivity); try (apply clash_meet; reflexivity); try discriminate; [|cbn; intuition discriminate].
  rewrite !undo_one; try (apply clash_overlap; reflexivity); try discriminate; cbn; intuition discriminate.
Qed.
Lemma restored_name_same k : restored_name k = k <-> ~ occurs dummy_slash k /\ ~ occurs dummy_tilde k.
Proof.
  unfold restored_name, slash, tilde, name_of. cbn [list_ascii_of_string]. split.
  - intros E. set (k1 := replace dummy_slash _ k) in *.
    assert (L : (2 <= length dummy_slash)%nat) by (cbn; lia). assert (L' : (2 <= length dummy_tilde)%nat) by (cbn; lia).
    destruct (replace_length dummy_slash "/" k L) as [A1 A2]. destruct (replace_length dummy_tilde "~" k1 L') as [B1 B2]. fold k1 in A1, A2. rewrite E in B1, B2.
    assert (Q : length k1 = length k) by lia. split; [intros H; apply A2 in H; lia|].
    assert (~ occurs dummy_slash k) by (intros H; apply A2 in H; lia). unfold k1 in E, B2. rewrite replace_free in B2 by (auto; cbn; lia). intros H1. apply B2 in H1. congruence.
  - intros [H1 H2]. rewrite (replace_free dummy_slash) by (auto; cbn; lia). apply replace_free; [cbn; lia|auto].
Qed.

(** C108: a name comes back as it was if and only if neither stand-in was part of it *)
Theorem name_round_trip k : restored_name (saved_name k) = k <-> ~ occurs dummy_slash k /\ ~ occurs dummy_tilde k.
Proof. rewrite restored_saved. apply restored_name_same. Qed.
Lemma in_replace_char c r x s : In x (replace [c] r s) -> In x r \/ (In x s /\ x <> c).
Proof.
  rewrite replace_char. intros H. apply in_flat_map in H. destruct H as (y & Hy & H). destruct (Ascii.eqb_spec c y) as [->|N]; [auto|]. destruct H as [<-|[]]. right. split; auto.
Qed.
(** C108: a saved name has no slash and no tilde, and is the name itself where there were none *)
Theorem saved_name_clean k : ~ In "/"%char (saved_name k) /\ ~ In "~"%char (saved_name k) /\
  (~ In "/"%char k -> ~ In "~"%char k -> saved_name k = k).
Proof.
  unfold saved_name, slash, tilde, name_of. cbn [list_ascii_of_string]. split; [|split].
  - intros H. apply in_replace_char in H. destruct H as [H|[H _]]; [cbn in H; intuition discriminate|]. apply in_replace_char in H. destruct H as [H|[_ H]]; [cbn in H; intuition discriminate|congruence].
  - intros H. apply in_replace_char in H. destruct H as [H|[_ H]]; [cbn in H; intuition discriminate|congruence].
  - intros H1 H2. rewrite replace_char_free by (rewrite replace_char_free; auto). apply replace_char_free. auto.
Qed.

(** * dicts *)
Section Dicts.
Context {V : Type}.
Notation dict := (dict (V := V)).
Notation state := (state (V := V)).

Lemma set_item_new k v (d : dict) : ~ In k (map fst d) -> set_item k v d = d ++ [(k, v)].
Proof.
  induction d as [|[k' v'] d IH]; intros H; [reflexivity|]. cbn in H |- *. rewrite name_eqb_neq by (intros ->; tauto). rewrite IH by tauto. reflexivity.
Qed.
Lemma set_item_old k v (d : dict) : In k (map fst d) -> length (set_item k v d) = length d /\ map fst (set_item k v d) = map fst d.
Proof.
  induction d as [|[k' v'] d IH]; intros H; [destruct H|]. cbn in H |- *. destruct (name_eqb k k') eqn:E.
  - apply name_eqb_eq in E. subst. auto.
  - destruct H as [H|H]; [subst; rewrite (proj2 (name_eqb_eq k k) eq_refl) in E; discriminate|]. destruct (IH H) as [I1 I2]. cbn. rewrite I1, I2. auto.
Qed.
Lemma set_item_keys k v (d : dict) x : In x (map fst (set_item k v d)) -> x = k \/ In x (map fst d).
Proof.
  destruct (in_dec (list_eq_dec ascii_dec) k (map fst d)) as [H|H].
  - rewrite (proj2 (set_item_old k v d H)). auto.
  - rewrite set_item_new by auto. rewrite map_app, in_app_iff. cbn. intros [|[|[]]]; auto.
Qed.
Notation fill := (fold_left (fun (d : dict) kv => set_item (fst kv) (snd kv) d)).
Lemma fill_spec items : forall acc : dict,
  (length (fill items acc) <= length acc + length items)%nat /\
  (length (fill items acc) = length acc + length items -> fill items acc = acc ++ items)%nat /\
  (NoDup (map fst (acc ++ items)) -> fill items acc = acc ++ items) /\
  (NoDup (map fst acc) -> NoDup (map fst (fill items acc))) /\
  (forall k, In k (map fst (fill items acc)) -> In k (map fst acc) \/ In k (map fst items)).
Proof.
  induction items as [|[k v] items IH]; intros acc; cbn [fold_left fst snd length].
  - rewrite app_nil_r. repeat split; auto; lia.
  - destruct (IH (set_item k v acc)) as (L & E & N & D & M). destruct (in_dec (list_eq_dec ascii_dec) k (map fst acc)) as [H|H].
    + destruct (set_item_old k v acc H) as [Ls Ks]. rewrite Ls in L, E. rewrite Ks in D. split; [lia|]. split; [lia|]. split; [|split].
      * intros Nd. exfalso. rewrite map_app in Nd. cbn in Nd. apply NoDup_remove_2 in Nd. apply Nd. apply in_or_app. auto.
      * auto.
      * intros x Hx. apply M in Hx. rewrite Ks in Hx. cbn. destruct Hx; auto.
    + rewrite (set_item_new k v acc H) in *. rewrite app_length in L, E. cbn [length] in L, E. split; [lia|]. split; [|split; [|split]].
      * intros Q. rewrite E by lia. rewrite <- app_assoc. reflexivity.
      * intros Nd. rewrite N by (rewrite <- app_assoc; auto). rewrite <- app_assoc. reflexivity.
      * intros Nd. apply D. rewrite map_app. cbn. apply NoDup_Add with (a := k) (l := map fst acc); [|auto]. rewrite <- (app_nil_r (map fst acc)) at 1. apply Add_app.
      * intros x Hx. apply M in Hx. rewrite map_app, in_app_iff in Hx. cbn in Hx |- *. tauto.
Qed.
Lemma renamed_keys f (d : dict) : map fst (renamed f d) = map f (map fst d).
Proof. unfold renamed. rewrite !map_map. reflexivity. Qed.
Lemma rename_dict_spec l r (d : dict) :
  (length (rename_dict l r d) <= length d)%nat /\
  (length (rename_dict l r d) = length d -> rename_dict l r d = renamed (replace l r) d) /\
  (NoDup (map (replace l r) (map fst d)) -> rename_dict l r d = renamed (replace l r) d) /\
  NoDup (map fst (rename_dict l r d)) /\
  (forall k, In k (map fst (rename_dict l r d)) -> exists k0, In k0 (map fst d) /\ k = replace l r k0).
Proof.
  unfold rename_dict, dict_of. fold (renamed (replace l r) d). destruct (fill_spec (renamed (replace l r) d) []) as (L & E & N & D & M). cbn [length app Nat.add] in *.
  assert (Ln : length (renamed (replace l r) d) = length d) by apply map_length. rewrite Ln in *. rewrite renamed_keys in *.
  split; [auto|]. split; [auto|]. split; [auto|]. split; [apply D; constructor|]. intros k Hk. apply M in Hk. destruct Hk as [[]|Hk]. apply in_map_iff in Hk. destruct Hk as (k0 & <- & Hk). eauto.
Qed.

Definition saved_dict (d : dict) : dict := rename_dict tilde dummy_tilde (rename_dict slash dummy_slash d).
Definition restored_dict (d : dict) : dict := rename_dict dummy_tilde tilde (rename_dict dummy_slash slash d).
Lemma renamed_renamed f g (d : dict) : renamed g (renamed f d) = renamed (fun k => g (f k)) d.
Proof. unfold renamed. rewrite map_map. reflexivity. Qed.
Lemma renamed_id f (d : dict) : renamed f d = d <-> forall k, In k (map fst d) -> f k = k.
Proof.
  induction d as [|[k v] d IH]; cbn; [split; [intros _ k []|auto]|]. split.
  - intros E. injection E as E1 E2. intros k' [<-|H]; auto. apply IH; auto.
  - intros H. rewrite (H k) by auto. f_equal. apply IH. auto.
Qed.
Lemma NoDup_map_back {A B} (f : A -> B) (g : B -> A) l : (forall x, In x l -> g (f x) = x) -> NoDup l -> NoDup (map f l).
Proof.
  intros H N. induction N as [|x l Hx N IH]; cbn; constructor.
  - intros Hin. apply in_map_iff in Hin. destruct Hin as (y & E & Hy). apply Hx. assert (y = x); [|congruence]. rewrite <- (H y), <- (H x); [congruence|left; auto|right; auto].
  - apply IH. intros y Hy. apply H. right. auto.
Qed.

Lemma dict_round_trip (d : dict) : wf_dict d -> (restored_dict (saved_dict d) = d <-> forall k, In k (map fst d) -> ~ occurs dummy_slash k /\ ~ occurs dummy_tilde k).
Proof.
  intros W. unfold restored_dict, saved_dict. set (d1 := rename_dict slash dummy_slash d). set (d2 := rename_dict tilde dummy_tilde d1). set (d3 := rename_dict dummy_slash slash d2). set (d4 := rename_dict dummy_tilde tilde d3).
  destruct (rename_dict_spec slash dummy_slash d) as (L1 & E1 & N1 & _). destruct (rename_dict_spec tilde dummy_tilde d1) as (L2 & E2 & N2 & _).
  destruct (rename_dict_spec dummy_slash slash d2) as (L3 & E3 & N3 & _). destruct (rename_dict_spec dummy_tilde tilde d3) as (L4 & E4 & N4 & _).
  fold d1 in L1, E1, N1. fold d2 in L2, E2, N2. fold d3 in L3, E3, N3. fold d4 in L4, E4, N4. split.
  - intros E k Hk. rewrite E in *. assert (length d1 = length d /\ length d2 = length d1 /\ length d3 = length d2 /\ length d = length d3)%nat by lia.
    rewrite E3 in E4 by tauto. rewrite E2 in E4 by tauto. rewrite E1 in E4 by tauto. specialize (E4 ltac:(rewrite !renamed_renamed; symmetry; apply map_length)). rewrite !renamed_renamed in E4. symmetry in E4.
    apply name_round_trip. rewrite renamed_id in E4. exact (E4 k Hk).
  - intros H. assert (F : forall k, In k (map fst d) -> restored_name (saved_name k) = k) by (intros k Hk; apply name_round_trip; auto).
    set (f1 := replace slash dummy_slash) in *. set (f2 := replace tilde dummy_tilde) in *. set (f3 := replace dummy_slash slash) in *. set (f4 := replace dummy_tilde tilde) in *.
    assert (F' : forall k, In k (map fst d) -> f4 (f3 (f2 (f1 k))) = k) by exact F. clear F.
    assert (A1 : d1 = renamed f1 d) by (apply N1; apply (NoDup_map_back f1 (fun y => f4 (f3 (f2 y)))); auto).
    assert (A2 : d2 = renamed (fun k => f2 (f1 k)) d).
    { rewrite N2; [rewrite A1; apply renamed_renamed|]. rewrite A1, renamed_keys, (map_map f1 f2). apply (NoDup_map_back (fun k => f2 (f1 k)) (fun y => f4 (f3 y))); auto. }
    assert (A3 : d3 = renamed (fun k => f3 (f2 (f1 k))) d).
    { rewrite N3; [rewrite A2; apply renamed_renamed|]. rewrite A2, renamed_keys, (map_map (fun k => f2 (f1 k)) f3). apply (NoDup_map_back (fun k => f3 (f2 (f1 k))) f4); auto. }
    rewrite N4; [rewrite A3, renamed_renamed; apply renamed_id; exact F'|].
    rewrite A3, renamed_keys, (map_map (fun k => f3 (f2 (f1 k))) f4). rewrite (map_ext_in _ (fun k => k)) by exact F'. rewrite map_id. exact W.
Qed.

(** * states *)
Definition map_field (F : dict -> dict) (f : field (V := V)) : field := match f with FDict d => FDict (F d) | FValue v => FValue v end.
Definition map_part (F : dict -> dict) (p : opt_part (V := V)) : opt_part := match p with Fields fs => Fields (map (fun nf => (fst nf, map_field F (snd nf))) fs) | Plain v => Plain v end.
Definition map_state (F : dict -> dict) (s : state) : state := mkstate (F (st_params s)) (map (map_part F) (st_opt s)) (st_rest s).
Lemma map_state_map F G s : map_state G (map_state F s) = map_state (fun d => G (F d)) s.
Proof.
  unfold map_state. cbn. f_equal. rewrite map_map. apply map_ext. intros [fs|v]; [|reflexivity]. cbn. rewrite map_map. f_equal. apply map_ext. intros [n [d|v]]; reflexivity.
Qed.
Lemma map_state_dicts F s : dicts (map_state F s) = map F (dicts s).
Proof.
  unfold dicts, map_state. cbn [st_params st_opt map]. f_equal. induction (st_opt s) as [|p ps IH]; [reflexivity|]. cbn [map flat_map]. rewrite map_app, IH. f_equal.
  destruct p as [fs|v]; [|reflexivity]. cbn. clear IH. induction fs as [|[n [d|v]] fs IH]; [reflexivity| |]; cbn; rewrite IH; reflexivity.
Qed.
Lemma map_state_same F s : map_state F s = s <-> forall d, In d (dicts s) -> F d = d.
Proof.
  split.
  - intros E. assert (M : map F (dicts s) = dicts s) by (rewrite <- map_state_dicts, E; reflexivity). clear E. induction (dicts s) as [|d ds IH]; [intros d []|]. cbn in M. injection M as M1 M2. intros d' [<-|H]; auto.
  - intros H. destruct s as [ps os r]. unfold map_state, dicts in *. cbn in *. rewrite H by auto. f_equal.
    assert (Ho : forall d, In d (flat_map part_dicts os) -> F d = d) by auto. clear H. induction os as [|p os IH]; [reflexivity|]. cbn in Ho |- *. rewrite IH by (intros; apply Ho; apply in_or_app; auto). f_equal.
    assert (Hp : forall d, In d (part_dicts p) -> F d = d) by (intros; apply Ho; apply in_or_app; auto). clear Ho IH. destruct p as [fs|v]; [|reflexivity]. cbn in Hp |- *. f_equal.
    induction fs as [|[n [d|v]] fs IH]; [reflexivity| |]; cbn in Hp |- *; rewrite IH by auto; [rewrite Hp by auto|]; reflexivity.
Qed.
Lemma rename_state_map l r s : rename_state l r s = map_state (rename_dict l r) s.
Proof. reflexivity. Qed.
Lemma to_checkpoint_map s : to_checkpoint s = map_state saved_dict s.
Proof. unfold to_checkpoint, sanitize_state_keys. cbn [fold_left fst snd]. rewrite !rename_state_map, map_state_map. reflexivity. Qed.
Lemma from_checkpoint_map s : from_checkpoint s = map_state restored_dict s.
Proof. unfold from_checkpoint, sanitize_state_keys. cbn [fold_left fst snd]. rewrite !rename_state_map, map_state_map. reflexivity. Qed.

(** C108: a state comes back from its checkpoint as it was if and only if none of its keys had a stand-in
    for a slash or a tilde in it *)
Theorem checkpoint_round_trip (s : state) : wf_state s ->
  (from_checkpoint (to_checkpoint s) = s <-> forall k, key_of s k -> ~ occurs dummy_slash k /\ ~ occurs dummy_tilde k).
Proof.
  intros W. rewrite to_checkpoint_map, from_checkpoint_map, map_state_map, map_state_same. split.
  - intros H k (d & v & Hd & Hk). eapply (proj1 (dict_round_trip d (W d Hd))); [apply H; auto|]. apply in_map_iff. exists (k, v). auto.
  - intros H d Hd. apply dict_round_trip; [apply W; auto|]. intros k Hk. apply in_map_iff in Hk. destruct Hk as ([k' v] & <- & Hk). apply H. exists d, v. auto.
Qed.

(** C108: then the checkpoint has the same arrays under the saved names, in the same order *)
Theorem checkpoint_contents (s : state) : wf_state s -> (forall k, key_of s k -> ~ occurs dummy_slash k /\ ~ occurs dummy_tilde k) ->
  dicts (to_checkpoint s) = map (renamed saved_name) (dicts s) /\ st_rest (to_checkpoint s) = st_rest s /\ length (st_opt (to_checkpoint s)) = length (st_opt s).
Proof.
  intros W H. split; [|split; [reflexivity|rewrite to_checkpoint_map; apply map_length]]. rewrite to_checkpoint_map, map_state_dicts. apply map_ext_in. intros d Hd.
  assert (F : forall k, In k (map fst d) -> restored_name (saved_name k) = k).
  { intros k Hk. apply name_round_trip. apply in_map_iff in Hk. destruct Hk as ([k' v] & <- & Hk). apply H. exists d, v. auto. }
  unfold saved_dict. destruct (rename_dict_spec slash dummy_slash d) as (_ & _ & N1 & _). destruct (rename_dict_spec tilde dummy_tilde (rename_dict slash dummy_slash d)) as (_ & _ & N2 & _).
  assert (A1 : rename_dict slash dummy_slash d = renamed (replace slash dummy_slash) d).
  { apply N1. apply (NoDup_map_back _ (fun y => restored_name (replace tilde dummy_tilde y))); [exact F|apply W; auto]. }
  rewrite N2; [rewrite A1; rewrite renamed_renamed; reflexivity|]. rewrite A1, renamed_keys, (map_map (replace slash dummy_slash) (replace tilde dummy_tilde)). apply (NoDup_map_back saved_name restored_name); [exact F|apply W; auto].
Qed.

(** C108: no key of a checkpoint has a slash or a tilde, whatever the state, and no key is there twice *)
Theorem checkpoint_keys (s : state) : wf_state (to_checkpoint s) /\
  forall k, key_of (to_checkpoint s) k -> ~ In "/"%char k /\ ~ In "~"%char k /\ exists k0, key_of s k0 /\ k = saved_name k0.
Proof.
  split.
  - intros d Hd. rewrite to_checkpoint_map, map_state_dicts in Hd. apply in_map_iff in Hd. destruct Hd as (d0 & <- & _). apply rename_dict_spec.
  - intros k (d & v & Hd & Hk). rewrite to_checkpoint_map, map_state_dicts in Hd. apply in_map_iff in Hd. destruct Hd as (d0 & <- & Hd).
    assert (Hk' : In k (map fst (saved_dict d0))) by (apply in_map_iff; exists (k, v); auto).
    apply rename_dict_spec in Hk'. destruct Hk' as (k1 & H1 & ->). apply rename_dict_spec in H1. destruct H1 as (k0 & H0 & ->).
    change (replace tilde dummy_tilde (replace slash dummy_slash k0)) with (saved_name k0). split; [apply saved_name_clean|]. split; [apply saved_name_clean|].
    exists k0. split; [|reflexivity]. apply in_map_iff in H0. destruct H0 as ([k' v0] & <- & H0). exists d0, v0. auto.
Qed.

(** C108: two parameters whose names are saved alike do not both survive: the name itself is saved as it is *)
Theorem checkpoint_loses_refuted (s : state) k : In k (map fst (st_params s)) -> In (saved_name k) (map fst (st_params s)) -> k <> saved_name k ->
  (length (st_params (to_checkpoint s)) < length (st_params s))%nat.
Proof.
  intros H1 H2 N. rewrite to_checkpoint_map. cbn [map_state st_params]. set (d := st_params s) in *. unfold saved_dict.
  destruct (rename_dict_spec slash dummy_slash d) as (L1 & E1 & _ & _ & _). destruct (rename_dict_spec tilde dummy_tilde (rename_dict slash dummy_slash d)) as (L2 & E2 & _ & D2 & _).
  destruct (Nat.eq_dec (length (rename_dict tilde dummy_tilde (rename_dict slash dummy_slash d))) (length d)) as [Q|Q]; [|lia]. exfalso.
  rewrite E2, E1, renamed_renamed, renamed_keys in D2 by lia. change (fun k => replace tilde dummy_tilde (replace slash dummy_slash k)) with saved_name in D2.
  assert (I : saved_name (saved_name k) = saved_name k) by (apply saved_name_clean; apply saved_name_clean).
  apply in_split in H1. destruct H1 as (a & b & E). rewrite E, map_app in D2. cbn [map] in D2. apply NoDup_remove_2 in D2. apply D2. rewrite <- map_app, <- I. apply in_map.
  rewrite E in H2. apply in_app_or in H2. apply in_or_app. destruct H2 as [H2|[H2|H2]]; auto. congruence.
Qed.
End Dicts.
Print Assumptions name_round_trip.
Print Assumptions saved_name_clean.
Print Assumptions checkpoint_round_trip.
Print Assumptions checkpoint_contents.
Print Assumptions checkpoint_keys.
Print Assumptions checkpoint_loses_refuted.

(** a network with names of haiku modules, and one with a name that stands for another *)
Example checkpoint_nonvacuous :
  let ok := mkstate [(name_of "net/~/linear", 1%nat); (name_of "net/out", 2%nat)]
    [Fields [(name_of "count", FValue 3%nat); (name_of "mu", FDict [(name_of "net/~/linear", 4%nat)])]; Plain 5%nat] 6%nat in
  let clash := mkstate [(name_of "net/out", 1%nat); (name_of "netdummy_slashout", 2%nat)] [] 0%nat in
  (wf_state ok /\ from_checkpoint (to_checkpoint ok) = ok /\
   dicts (to_checkpoint ok) = [[(name_of "netdummy_slashdummy_tildedummy_slashlinear", 1%nat); (name_of "netdummy_slashout", 2%nat)];
                               [(name_of "netdummy_slashdummy_tildedummy_slashlinear", 4%nat)]]) /\
  wf_state clash /\ st_params (from_checkpoint (to_checkpoint clash)) = [(name_of "net/out", 2%nat)].
Proof.
  cbv zeta. split; [split; [|split; vm_compute; reflexivity]|split; [|vm_compute; reflexivity]].
  - intros d [<-|[<-|[]]]; cbn; repeat constructor; cbn; intuition discriminate.
  - intros d [<-|[]]; cbn; repeat constructor; cbn; intuition discriminate.
Qed.
