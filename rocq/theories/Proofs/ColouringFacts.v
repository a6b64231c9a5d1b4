From Coq Require Import Reals ZArith List Bool Lia Lra Arith Permutation Sorting.Sorted.
From Verif Require Import Base.Prelude Model.Alignment Spec.Aligning Spec.Colouring
  Proofs.BaseFacts Proofs.RateFacts Proofs.AlignFacts Proofs.MergeFacts.
Import ListNotations.

(** * counting *)
Lemma count_true_pos l : (1 <= count_true l)%nat <-> In true l.
Proof.
  unfold count_true. induction l as [|[] l IH]; cbn; [split; [lia|tauto]|split; auto; lia|].
  rewrite IH. split; [auto|intros [H|H]; [discriminate|auto]].
Qed.
Lemma count_true_zero l : count_true l = 0%nat <-> ~ In true l.
Proof. rewrite <- count_true_pos. lia. Qed.
Lemma In_true_nth l : In true l <-> exists i, (i < length l)%nat /\ nth i l false = true.
Proof.
  split.
  - intros H. apply In_nth_error in H as (i & Hi). exists i. split; [eapply nth_error_lt; eauto|]. apply nth_error_nth_default; auto.
  - intros (i & Hi & E). rewrite <- E. apply nth_In; auto.
Qed.
Lemma count_true_three l : (3 <= count_true l)%nat <->
  exists a b c, a <> b /\ a <> c /\ b <> c /\ nth a l false = true /\ nth b l false = true /\ nth c l false = true.
Proof.
  assert (G : forall k, (k <= count_true l)%nat <-> exists idx, length idx = k /\ NoDup idx /\ forall i, In i idx -> nth i l false = true).
  { clear. induction l as [|x l IH]; intros k.
    - cbn. split.
      + intros H. exists []. repeat split; [cbn; lia|constructor|intros i []].
      + intros (idx & <- & _ & K). destruct idx as [|i idx]; [cbn; lia|]. specialize (K i (or_introl eq_refl)). destruct i; discriminate.
    - assert (E : count_true (x :: l) = ((if x then 1 else 0) + count_true l)%nat) by (destruct x; reflexivity). rewrite E. split.
      + intros H. destruct x.
        * destruct k as [|k]; [exists []; repeat split; [constructor|intros i []]|].
          destruct (proj1 (IH k) ltac:(lia)) as (idx & L & Nd & K). exists (0%nat :: map S idx).
          split; [cbn; rewrite map_length; lia|]. split.
          -- constructor; [intro Q; apply in_map_iff in Q as (i & Q & _); discriminate|]. apply FinFun.Injective_map_NoDup; auto. intros a b; congruence.
          -- intros i [<-|Hi]; auto. apply in_map_iff in Hi as (j & <- & Hj). cbn. auto.
        * destruct (proj1 (IH k) ltac:(lia)) as (idx & L & Nd & K). exists (map S idx). split; [rewrite map_length; auto|]. split.
          -- apply FinFun.Injective_map_NoDup; auto. intros a b; congruence.
          -- intros i Hi. apply in_map_iff in Hi as (j & <- & Hj). cbn. auto.
      + intros (idx & L & Nd & K).
        set (tl := map pred (filter (fun i => negb (Nat.eqb i 0)) idx)).
        assert (Ht : (length tl <= count_true l)%nat).
        { apply IH. exists tl. split; auto. split.
          - unfold tl. assert (Nf : NoDup (filter (fun i => negb (Nat.eqb i 0)) idx)) by (apply NoDup_filter; auto).
            assert (P : forall i, In i (filter (fun i => negb (Nat.eqb i 0)) idx) -> (0 < i)%nat).
            { intros i Hi. apply filter_In in Hi as [_ Hi]. destruct i; [discriminate|lia]. }
            revert Nf P. generalize (filter (fun i => negb (Nat.eqb i 0)) idx). clear. induction l as [|i l IH]; intros Nf P; cbn; constructor.
            + inversion Nf; subst. intro Q. apply in_map_iff in Q as (j & E & Hj).
              assert (0 < i)%nat by (apply P; left; auto). assert (0 < j)%nat by (apply P; right; auto). assert (i = j) by lia. subst. auto.
            + inversion Nf; subst. apply IH; auto. intros; apply P; right; auto.
          - intros i Hi. unfold tl in Hi. apply in_map_iff in Hi as (j & <- & Hj). apply filter_In in Hj as [Hj E0].
            specialize (K j Hj). destruct j; [discriminate|]. exact K. }
        unfold tl in Ht. rewrite map_length in Ht.
        assert (Lf : (length idx <= 1 + length (filter (fun i => negb (Nat.eqb i 0)) idx))%nat /\
                     (~ In 0%nat idx -> length idx = length (filter (fun i => negb (Nat.eqb i 0)) idx))).
        { clear -Nd. induction Nd as [|i idx Ni Nd [IH1 IH2]]; cbn; [split; auto|].
          destruct (Nat.eqb_spec i 0); cbn [negb].
          - subst. split; [rewrite <- IH2 by auto; cbn; lia|]. intros Q. exfalso. apply Q. auto.
          - cbn [length]. split; [lia|]. intros Q. rewrite <- IH2; auto. }
        destruct Lf as [Lf1 Lf2]. destruct x; [lia|].
        assert (~ In 0%nat idx) by (intro Q; specialize (K 0%nat Q); discriminate). specialize (Lf2 H). lia. }
  rewrite G. split.
  - intros (idx & L & Nd & K). destruct idx as [|a [|b [|c [|d idx]]]]; try discriminate.
    inversion Nd as [|? ? Na Nd']; subst. inversion Nd' as [|? ? Nb _]; subst. cbn in *.
    exists a, b, c. repeat split; auto; intros ->; auto.
  - intros (a & b & c & A & B & C & Ha & Hb & Hc). exists [a; b; c]. split; auto. split.
    + repeat constructor; cbn; intuition congruence.
    + intros i [<-|[<-|[<-|[]]]]; auto.
Qed.

Lemma count_true_le l : (count_true l <= length l)%nat.
Proof. unfold count_true. induction l as [|[] l IH]; cbn; lia. Qed.

(** * the loop *)
Section Loop.
Variable n : nat.
Variable mask : list (list bool).
Hypothesis Lm : length mask = n.
Hypothesis Lr : forall row, In row mask -> length row = n.
Variable labels : list Z.
Hypothesis Ll : length labels = n.
Hypothesis Hl : forall z, In z labels -> z = 0%Z \/ z = 1%Z.

Definition mbond (i j : nat) : Prop := nth j (nth i mask []) false = true.

Lemma row_length i : (i < n)%nat -> length (nth i mask []) = n.
Proof. intros H. apply Lr, nth_In. lia. Qed.

Lemma filtered_length r c : length r = n -> length c = n -> length (filtered r c) = n.
Proof. intros. unfold filtered. rewrite map_length, combine_length. lia. Qed.
Lemma filtered_nth r c j : length r = length c -> nth j (filtered r c) false = nth j r false && nth j c false.
Proof.
  intros L. unfold filtered.
  change false with ((fun bc : bool * bool => fst bc && snd bc) (false, false)) at 1. rewrite map_nth.
  rewrite combine_nth by auto. reflexivity.
Qed.

Definition is_true (l : list bool) (i : nat) : Prop := nth i l false = true.
Definition frontier_of (classified : list bool) (i : nat) : Prop :=
  (i < n)%nat /\ ~ is_true classified i /\ exists j, (j < n)%nat /\ mbond i j /\ is_true classified j.

Lemma in_filtered classified i : length classified = n -> (i < n)%nat ->
  In true (filtered (nth i mask []) classified) <-> exists j, (j < n)%nat /\ mbond i j /\ is_true classified j.
Proof.
  intros Lc Hi. rewrite In_true_nth, filtered_length by (auto; apply row_length; auto).
  split; intros (j & Hj & E); exists j; split; auto.
  - rewrite filtered_nth in E by (rewrite row_length; auto). apply andb_true_iff in E as [E1 E2]. split; auto.
  - rewrite filtered_nth by (rewrite row_length; auto). destruct E as [E1 E2]. apply andb_true_iff. split; auto.
Qed.

(** the class of a frontier atom *)
Lemma zsum_select frow classes : length frow = length classes -> (forall z, In z classes -> z = 0%Z \/ z = 1%Z) ->
  (0 <= zsum (mask_select frow classes) <= Z.of_nat (count_true frow))%Z /\
  (zsum (mask_select frow classes) = 0%Z <-> forall j, (j < length frow)%nat -> nth j frow false = true -> nth j classes 0%Z = 0%Z).
Proof.
  unfold count_true. revert classes; induction frow as [|b frow IH]; intros [|z classes] L K; try discriminate.
  - cbn. split; [lia|]. split; auto. intros; lia.
  - cbn in L. destruct (IH classes ltac:(lia) ltac:(intros; apply K; right; auto)) as [B E]. unfold zsum in *.
    destruct (K z (or_introl eq_refl)) as [->| ->]; destruct b; cbn [mask_select filter length fold_right]; (split; [lia|]).
    + rewrite E. split; intros Q; [intros [|j] Hj T; cbn; auto; apply Q; cbn in *; auto; lia|]. intros j Hj T. apply (Q (S j)); cbn; auto; lia.
    + rewrite E. split; intros Q; [intros [|j] Hj T; cbn in *; [discriminate|]; apply Q; auto; lia|]. intros j Hj T. apply (Q (S j)); cbn; auto; lia.
    + split; [lia|]. intros Q. specialize (Q 0%nat ltac:(cbn; lia) eq_refl). discriminate.
    + rewrite E. split; intros Q; [intros [|j] Hj T; cbn in *; [discriminate|]; apply Q; auto; lia|]. intros j Hj T. apply (Q (S j)); cbn; auto; lia.
Qed.
Lemma new_class_spec frow classes : length frow = length classes -> (forall z, In z classes -> z = 0%Z \/ z = 1%Z) -> In true frow ->
  (new_class frow classes = 1%Z /\ forall j, (j < length frow)%nat -> nth j frow false = true -> nth j classes 0%Z = 0%Z) \/
  (new_class frow classes = 0%Z /\ exists j, (j < length frow)%nat /\ nth j frow false = true /\ nth j classes 0%Z = 1%Z).
Proof.
  intros L K T. destruct (zsum_select frow classes L K) as [B E]. apply count_true_pos in T. unfold new_class.
  set (s := zsum (mask_select frow classes)) in *. set (c := Z.of_nat (count_true frow)) in *.
  assert (Hc : (1 <= c)%Z) by (unfold c; lia).
  destruct (Z.eq_dec s 0) as [H0|H0].
  - left. split; [|apply E; auto]. rewrite H0, Z.sub_0_r. apply Z.quot_same. lia.
  - right. split; [apply Z.quot_small; lia|].
    destruct (existsb (fun j => nth j frow false && (nth j classes 0%Z =? 1)%Z) (seq 0 (length frow))) eqn:Ex.
    + apply existsb_exists in Ex as (j & Hj & Q). apply in_seq in Hj. apply andb_true_iff in Q as [Q1 Q2]. apply Z.eqb_eq in Q2.
      exists j. repeat split; auto; lia.
    + exfalso. apply H0, E. intros j Hj Q. destruct (K (nth j classes 0%Z)) as [|Q1]; auto; [apply nth_In; lia|].
      assert (X : existsb (fun j => nth j frow false && (nth j classes 0%Z =? 1)%Z) (seq 0 (length frow)) = true).
      { apply existsb_exists. exists j. split; [apply in_seq; lia|]. rewrite Q, Q1. reflexivity. }
      congruence.
Qed.

Lemma nth_combine3 {A B} (f : A -> B) l i d d' : (i < length l)%nat -> nth i (map f l) d = f (nth i l d').
Proof. apply nth_map_in. Qed.

(** one round *)
Lemma round_spec classes classified : length classes = n -> length classified = n ->
  (forall z, In z classes -> z = 0%Z \/ z = 1%Z) ->
  match propagate_round mask classes classified with
  | None => forall i, ~ frontier_of classified i
  | Some (classes', classified') =>
      length classes' = n /\ length classified' = n /\ (exists i, frontier_of classified i) /\
      (forall i, (i < n)%nat -> (is_true classified' i <-> is_true classified i \/ frontier_of classified i)) /\
      (forall i, (i < n)%nat -> ~ frontier_of classified i -> nth i classes' 0%Z = nth i classes 0%Z) /\
      (forall i, frontier_of classified i ->
         (nth i classes' 0%Z = 1%Z /\ forall j, (j < n)%nat -> mbond i j -> is_true classified j -> nth j classes 0%Z = 0%Z) \/
         (nth i classes' 0%Z = 0%Z /\ exists j, (j < n)%nat /\ mbond i j /\ is_true classified j /\ nth j classes 0%Z = 1%Z))
  end.
Proof.
  intros Lc Ld K. unfold propagate_round.
  set (rows := map (fun r => filtered r classified) mask).
  set (frontier := map (fun rc => negb (snd rc) && (1 <=? count_true (fst rc))%nat) (combine rows classified)).
  assert (Lrows : length rows = n) by (unfold rows; rewrite map_length; auto).
  assert (Lf : length frontier = n) by (unfold frontier; rewrite map_length, combine_length; lia).
  assert (Hrow : forall i, (i < n)%nat -> nth i rows [] = filtered (nth i mask []) classified).
  { intros i Hi. unfold rows. rewrite (nth_map_in _ _ i []) by lia. reflexivity. }
  assert (Hf : forall i, (i < n)%nat -> nth i frontier false = true <-> frontier_of classified i).
  { intros i Hi. unfold frontier. rewrite (nth_map_in _ _ i ([], false)) by (rewrite combine_length; lia).
    rewrite combine_nth by lia. cbn [fst snd]. rewrite Hrow by auto.
    rewrite andb_true_iff, negb_true_iff, Nat.leb_le, count_true_pos, in_filtered by auto.
    unfold frontier_of, is_true. split.
    - intros [A B]. split; auto. split; [rewrite A; discriminate|auto].
    - intros (_ & A & B). split; auto. destruct (nth i classified false); auto. exfalso; apply A; auto. }
  destruct (Nat.eqb_spec (count_true frontier) 0) as [E|E].
  - apply count_true_zero in E. intros i Q. apply E. apply In_true_nth. assert (Hi : (i < n)%nat) by apply Q.
    exists i. split; [lia|]. apply Hf; auto.
  - assert (Hex : exists i, frontier_of classified i).
    { assert (T : In true frontier) by (apply count_true_pos; lia). apply In_true_nth in T as (i & Hi & T). exists i. apply Hf; auto. lia. }
    split; [rewrite map_length, !combine_length; lia|]. split; [rewrite map_length, combine_length; lia|]. split; auto.
    assert (Nth : forall i, (i < n)%nat ->
      nth i (map (fun x : Z * bool * list bool => if snd (fst x) then new_class (snd x) classes else fst (fst x)) (combine (combine classes frontier) rows)) 0%Z
      = if nth i frontier false then new_class (filtered (nth i mask []) classified) classes else nth i classes 0%Z).
    { intros i Hi. rewrite (nth_map_in _ _ i (0%Z, false, [])) by (rewrite !combine_length; lia).
      rewrite combine_nth by (rewrite combine_length; lia). rewrite combine_nth by lia. cbn [fst snd]. rewrite Hrow by auto. reflexivity. }
    split; [|split].
    + intros i Hi. unfold is_true. rewrite (nth_map_in _ _ i (false, false)) by (rewrite combine_length; lia).
      rewrite combine_nth by lia. cbn [fst snd]. rewrite orb_true_iff, Hf by auto. reflexivity.
    + intros i Hi Q. rewrite Nth by auto. destruct (nth i frontier false) eqn:Ef; auto. apply Hf in Ef; auto. contradiction.
    + intros i Q. assert (Hi : (i < n)%nat) by apply Q. rewrite Nth by auto. rewrite (proj2 (Hf i Hi) Q).
      assert (Lfr : length (filtered (nth i mask []) classified) = n) by (apply filtered_length; auto; apply row_length; auto).
      destruct (new_class_spec (filtered (nth i mask []) classified) classes) as [[A B]|[A (j & Hj & B & C)]]; auto; try lia.
      * apply in_filtered; auto. apply Q.
      * left. split; auto. intros j Hj M T. apply B; [lia|]. rewrite filtered_nth by (rewrite row_length; auto). apply andb_true_iff. split; auto.
      * right. split; auto. rewrite filtered_nth in B by (rewrite row_length; auto). apply andb_true_iff in B as [B1 B2].
        exists j. repeat split; auto. lia.
Qed.

Notation trusted := (trusted n mbond).
Notation within_steps := (within_steps n mbond).
Notation layer := (layer n mbond).

Lemma within_lt k i : within_steps k i -> (i < n)%nat.
Proof. revert i; induction k as [|k IH]; cbn; [intros i [H _]; auto|]. intros i [H|[H _]]; auto. Qed.
Lemma within_mono k k' i : (k <= k')%nat -> within_steps k i -> within_steps k' i.
Proof. induction 1; auto. intros H'. left. auto. Qed.
(** a bond changes the layer by at most one *)
Lemma within_bond k i j : (i < n)%nat -> within_steps k j -> mbond i j -> within_steps (S k) i.
Proof. intros Hi H B. right. split; auto. exists j. split; [eapply within_lt; eauto|auto]. Qed.

(** after r rounds *)
Definition state_ok (r : nat) (classes : list Z) (classified : list bool) : Prop :=
  length classes = n /\ length classified = n /\ (forall z, In z classes -> z = 0%Z \/ z = 1%Z) /\
  (forall i, (i < n)%nat -> (is_true classified i <-> within_steps r i)) /\
  (forall i, (i < n)%nat -> trusted i \/ ~ within_steps r i -> nth i classes 0%Z = nth i labels 0%Z) /\
  (forall k i, (k < r)%nat -> layer (S k) i ->
     (nth i classes 0%Z = 1%Z /\ forall j, (j < n)%nat -> mbond i j -> layer k j -> nth j classes 0%Z = 0%Z) \/
     (nth i classes 0%Z = 0%Z /\ exists j, (j < n)%nat /\ mbond i j /\ layer k j /\ nth j classes 0%Z = 1%Z)).

Lemma layer_unique k k' i : layer k i -> layer k' i -> k = k'.
Proof.
  intros [A B] [A' B']. destruct (Nat.lt_trichotomy k k') as [H|[H|H]]; auto; exfalso.
  - destruct k' as [|k']; [lia|]. apply B'. eapply within_mono; [|exact A]. lia.
  - destruct k as [|k]; [lia|]. apply B. eapply within_mono; [|exact A']. lia.
Qed.

Lemma round_state r classes classified classes' classified' : state_ok r classes classified ->
  propagate_round mask classes classified = Some (classes', classified') -> state_ok (S r) classes' classified'.
Proof.
  intros (Lc & Ld & K & Hc & Hk & Hly) E. pose proof (round_spec classes classified Lc Ld K) as RS. rewrite E in RS.
  destruct RS as (Lc' & Ld' & _ & Hd & Hs & Hn).
  assert (Fr : forall i, frontier_of classified i <-> layer (S r) i).
  { intro i. unfold frontier_of, Spec.Colouring.layer. cbn [Spec.Colouring.within_steps]. split.
    - intros (Hi & N & j & Hj & B & T). rewrite Hc in N, T by auto. split; auto. right. split; auto. exists j. auto.
    - intros [[H|(Hi & j & Hj & B & W)] N]; [contradiction|]. split; auto. split; [rewrite Hc; auto|]. exists j. split; auto. split; auto.
      apply Hc; auto. }
  (* atoms classified before keep their class *)
  assert (Old : forall i, within_steps r i -> nth i classes' 0%Z = nth i classes 0%Z).
  { intros i W. apply Hs; [eapply within_lt; eauto|]. rewrite Fr. intros [_ N]. contradiction. }
  split; [exact Lc'|]. split; [exact Ld'|]. split; [|split; [|split]].
  - intros z Hz. apply In_nth_error in Hz as (i & Hi). pose proof (nth_error_lt _ _ _ Hi) as L. rewrite Lc' in L.
    apply (nth_error_nth_default _ _ 0%Z) in Hi. subst z.
    destruct (in_dec Nat.eq_dec i (filter (fun i => if (nth i classes' 0 =? nth i classes 0)%Z then false else true) (seq 0 n))) as [Q|Q].
    + apply filter_In in Q as [_ Q]. destruct (Z.eqb_spec (nth i classes' 0%Z) (nth i classes 0%Z)) as [|Ne]; [discriminate|].
      (* it changed: it was on the frontier *)
      assert (F : ~ ~ frontier_of classified i) by (intro F; apply Ne, Hs; auto).
      destruct (Z.eq_dec (nth i classes' 0%Z) 0); auto. destruct (Z.eq_dec (nth i classes' 0%Z) 1); auto. exfalso.
      apply F. intros F'. destruct (Hn i F') as [[A _]|[A _]]; contradiction.
    + assert (E0 : nth i classes' 0%Z = nth i classes 0%Z).
      { destruct (Z.eqb_spec (nth i classes' 0%Z) (nth i classes 0%Z)) as [|Ne]; auto. exfalso. apply Q. apply filter_In.
        split; [apply in_seq; lia|]. destruct (Z.eqb_spec (nth i classes' 0%Z) (nth i classes 0%Z)); auto. }
      rewrite E0. apply K. apply nth_In. lia.
  - intros i Hi. rewrite Hd by auto. rewrite Hc, Fr by auto. split.
    + intros [W|[W _]]; [left|]; auto.
    + intros [W|W]; [left; auto|].
      unfold Spec.Colouring.layer. cbn [Spec.Colouring.within_steps].
      destruct (nth i classified false) eqn:Eb; [left; apply Hc; auto|right]. split; auto. rewrite <- Hc by auto. unfold is_true. rewrite Eb. discriminate.
  - intros i Hi [T|N].
    + rewrite Old by (exact (within_mono 0 r i (Nat.le_0_l _) T)). apply Hk; auto.
    + assert (~ within_steps r i) by (intro W; apply N; left; auto).
      rewrite Hs; auto. rewrite Fr. intros [W _]. contradiction.
  - intros k i Hkr Ly. destruct (Nat.eq_dec k r) as [->|Nk].
    + destruct (Hn i (proj2 (Fr i) Ly)) as [[A B]|[A (j & Hj & B & T & C)]].
      * left. split; auto. intros j Hj Bj Lj. rewrite Old by apply Lj. apply B; auto. apply Hc; auto. apply Lj.
      * right. split; auto. exists j. split; auto. split; auto. apply Hc in T; auto. split; [|rewrite Old; auto].
        split; auto. destruct r as [|r']; auto. intros W. destruct Ly as [Wi N]. apply N.
        apply (within_bond _ _ j); auto. eapply within_lt; eauto.
    + assert (Wi : within_steps r i) by (eapply within_mono; [|apply Ly]; lia).
      assert (Wj : forall j, layer k j -> within_steps r j) by (intros j Lj; eapply within_mono; [|apply Lj]; lia).
      destruct (Hly k i ltac:(lia) Ly) as [[A B]|[A (j & Hj & B & Lj & C)]].
      * left. split; [rewrite Old; auto|]. intros j Hj Bj Lj. rewrite Old by auto. auto.
      * right. split; [rewrite Old; auto|]. exists j. repeat (split; auto). rewrite Old; auto.
Qed.

Lemma count_grows classified classified' : length classified = n -> length classified' = n ->
  (forall i, (i < n)%nat -> is_true classified i -> is_true classified' i) ->
  (exists i, (i < n)%nat /\ ~ is_true classified i /\ is_true classified' i) ->
  (count_true classified < count_true classified')%nat.
Proof.
  intros L L' S (i & Hi & N & T). rewrite <- L in L'. rewrite <- L in S, Hi. clear -L' S Hi N T. unfold is_true, count_true in *.
  revert classified' i L' S Hi N T. induction classified as [|b l IH]; intros [|b' l'] i L' S Hi N T; cbn in *; try lia.
  assert (S' : forall i, (i < length l)%nat -> nth i l false = true -> nth i l' false = true).
  { intros j Hj E. apply (S (Datatypes.S j)); auto. lia. }
  destruct i as [|i].
  - destruct b; [congruence|]. rewrite T. cbn.
    assert (Le : forall l l' : list bool, length l' = length l -> (forall i, (i < length l)%nat -> nth i l false = true -> nth i l' false = true) ->
       (length (filter (fun b => b) l) <= length (filter (fun b => b) l'))%nat).
    { clear. induction l as [|x l IH]; intros [|x' l'] L S; cbn in *; try lia.
      assert (S' : forall i, (i < length l)%nat -> nth i l false = true -> nth i l' false = true) by (intros j Hj E; apply (S (Datatypes.S j)); auto; lia).
      specialize (IH l' ltac:(lia) S'). destruct x.
      - rewrite (S 0%nat ltac:(lia) eq_refl). cbn. lia.
      - destruct x'; cbn; lia. }
    specialize (Le l l' ltac:(lia) S'). lia.
  - specialize (IH l' i ltac:(lia) S' ltac:(lia) N T). destruct b.
    + rewrite (S 0%nat ltac:(lia) eq_refl). cbn. lia.
    + destruct b'; cbn; lia.
Qed.

Lemma loop_spec fuel : forall r classes classified, state_ok r classes classified -> (n - count_true classified < fuel)%nat ->
  exists final, propagate_loop fuel mask classes classified = Ok final /\ length final = n /\
    (forall z, In z final -> z = 0%Z \/ z = 1%Z) /\
    spread n mbond (fun i => nth i labels 0%Z) (fun i => nth i final 0%Z).
Proof.
  induction fuel as [|fuel IH]; intros r classes classified St Hf; [lia|]. cbn [propagate_loop].
  pose proof St as (Lc & Ld & K & Hc & Hk & Hly).
  pose proof (round_spec classes classified Lc Ld K) as RS.
  destruct (propagate_round mask classes classified) as [[classes' classified']|] eqn:E.
  - pose proof (round_state _ _ _ _ _ St E) as St'. destruct RS as (Lc' & Ld' & (i & Fi) & Hd & _).
    apply (IH (S r) classes' classified' St').
    assert (count_true classified < count_true classified')%nat.
    { apply count_grows; auto. - intros j Hj T. apply Hd; auto.
      - exists i. split; [apply Fi|]. split; [apply Fi|]. apply Hd; [apply Fi|auto]. }
    pose proof (count_true_le classified). pose proof (count_true_le classified'). lia.
  - exists classes. split; auto. split; auto. split; auto.
    (* nothing is reached any more *)
    assert (Stop : forall k i, within_steps k i -> within_steps r i).
    { induction k as [|k IHk]; intros i W.
      - exact (within_mono 0 r i (Nat.le_0_l _) W).
      - destruct W as [W|(Hi & j & Hj & B & W)]; auto.
        destruct (nth i classified false) eqn:Eb; [apply Hc; auto|]. exfalso. apply (RS i). split; auto.
        split; [unfold is_true; rewrite Eb; discriminate|]. exists j. split; auto. split; auto. apply Hc; auto. }
    split; [|split].
    + intros i T. apply Hk; [apply T|auto].
    + intros k i Ly. destruct (le_lt_dec r k) as [Hr|Hr].
      * exfalso. destruct Ly as [W N]. apply N. eapply within_mono; [exact Hr|]. eapply Stop; eauto.
      * apply Hly; auto.
    + intros i Hi N. apply Hk; auto.
Qed.

Lemma start_state classified : length classified = n ->
  (forall i, (i < n)%nat -> (is_true classified i <-> trusted i)) -> state_ok 0 labels classified.
Proof.
  intros Ld Hc. repeat (split; auto); try (apply Hc; auto); try (intros; lia).
Qed.
End Loop.
