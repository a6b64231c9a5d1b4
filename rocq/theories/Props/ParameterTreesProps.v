(** Property C128: the members of an ensemble, stacked and taken out again. *)
From Coq Require Import ZArith List Bool Lia Arith String.
From Verif Require Import Base.Prelude Model.MicroscopeUtils Model.DataUtils Model.ParameterTrees Spec.ParameterTrees.
Import ListNotations.
Local Open Scope list_scope.

Section Facts.
Context {A : Type}.
Notation array := (array A). Notation tree := (tree A).
Notation Leaf := (Leaf A). Notation Node := (Node A).

Lemma tree_ind' (P : tree -> Prop) :
  (forall a, P (Leaf a)) -> (forall cs, Forall (fun c => P (snd c)) cs -> P (Node cs)) -> forall t, P t.
Proof.
  intros HL HN. fix IH 1. intros [a|cs]; [apply HL|]. apply HN.
  induction cs as [|c cs IHc]; constructor; [apply IH|exact IHc].
Qed.

Fixpoint leaves (t : tree) : list array :=
  match t with
  | ParameterTrees.Leaf _ a => [a]
  | ParameterTrees.Node _ cs => (fix go (cs : list (string * tree)) := match cs with [] => [] | c :: cs => leaves (snd c) ++ go cs end) cs
  end.
Lemma leaves_node cs : leaves (Node cs) = flat_map (fun c => leaves (snd c)) cs.
Proof. induction cs as [|c cs IH]; [reflexivity|]. cbn in *. rewrite IH. reflexivity. Qed.

Lemma strings_eqb_iff a : forall b, strings_eqb a b = true <-> a = b.
Proof.
  induction a as [|x a IH]; intros [|y b]; cbn; split; try discriminate; auto.
  - intros H. apply andb_prop in H as [H1 H2]. apply String.eqb_eq in H1. apply IH in H2. congruence.
  - intros H. injection H as -> ->. rewrite String.eqb_refl. cbn. apply IH. reflexivity.
Qed.

Lemma Forall2_len {B C} (P : B -> C -> Prop) l r : Forall2 P l r -> List.length l = List.length r.
Proof. induction 1; cbn; auto. Qed.

Lemma same_keys_length : forall t u : tree, same_keys t u -> List.length (leaves t) = List.length (leaves u).
Proof.
  induction t as [a|cs IH] using tree_ind'; intros u E; inversion E as [|? ds G]; subst; [reflexivity|].
  rewrite !leaves_node. clear E. induction G as [|c d cs ds [_ E] G IHG]; [reflexivity|]. inversion IH; subst.
  cbn. rewrite !app_length, IHG by auto. f_equal. auto.
Qed.

Lemma Forall2_app_split {B C} (P : B -> C -> Prop) a b c d : List.length a = List.length c ->
  Forall2 P (a ++ b) (c ++ d) -> Forall2 P a c /\ Forall2 P b d.
Proof.
  revert c. induction a as [|x a IH]; intros [|y c] L F; cbn in *; try discriminate; auto.
  inversion F; subst. destruct (IH c ltac:(lia) ltac:(assumption)). auto.
Qed.

(** same keys, by the leaves *)
Lemma everywhere_leaves (P : array -> array -> Prop) : forall t u, everywhere P t u <-> same_keys t u /\ Forall2 P (leaves t) (leaves u).
Proof.
  induction t as [a|cs IH] using tree_ind'; intros u.
  - split.
    + intros H. inversion H; subst. split; [constructor; auto|]. cbn. auto.
    + intros [H F]. inversion H; subst. constructor. cbn in F. inversion F; auto.
  - split.
    + intros H. inversion H as [|cs' ds F]; subst. clear H. rewrite !leaves_node.
      assert (G : Forall2 (fun c d => fst c = fst d /\ same_keys (snd c) (snd d)) cs ds /\
                  Forall2 P (flat_map (fun c => leaves (snd c)) cs) (flat_map (fun c => leaves (snd c)) ds)).
      { induction F as [|c d cs ds [K E] F IHF]; cbn; [split; constructor|]. inversion IH as [|? ? Hc Hcs]; subst.
        destruct (IHF Hcs) as [G1 G2]. apply Hc in E as [E1 E2]. split; [constructor; auto|]. apply Forall2_app; auto. }
      destruct G as [G1 G2]. split; [constructor; exact G1|exact G2].
    + intros [H F]. inversion H as [|cs' ds G]; subst. clear H. constructor. rewrite !leaves_node in F.
      induction G as [|c d cs ds [K E] G IHG]; constructor; inversion IH as [|? ? Hc Hcs]; subst;
        cbn in F; apply Forall2_app_split in F as [F1 F2]; try (apply same_keys_length; auto).
      * split; [exact K|]. apply Hc. auto.
      * apply IHG; auto.
Qed.

(** ** flattening *)
Lemma flatten_same : forall t u : tree, same_keys t u -> flatten_up_to A t u = Some (map Leaf (leaves u)).
Proof.
  induction t as [a|cs IH] using tree_ind'; intros u E; inversion E as [|? ds G]; subst; [reflexivity|].
  clear E. cbn [flatten_up_to].
  assert (K : map fst cs = map fst ds) by (clear IH; induction G as [|c d cs ds [K _] G IHG]; cbn; congruence).
  rewrite (proj2 (strings_eqb_iff _ _) K). rewrite leaves_node. clear K.
  induction G as [|c d cs ds [K E] G IHG]; [reflexivity|]. inversion IH as [|? ? Hc Hcs]; subst.
  rewrite (Hc _ E), (IHG Hcs). cbn. rewrite map_app. reflexivity.
Qed.

Lemma flatten_length : forall (t u : tree) l, flatten_up_to A t u = Some l -> List.length l = List.length (leaves t).
Proof.
  induction t as [a|cs IH] using tree_ind'; intros u l E; cbn [flatten_up_to] in E; [injection E as <-; reflexivity|].
  destruct u as [|ds]; [discriminate|]. destruct (strings_eqb _ _) eqn:K; [|discriminate]. apply strings_eqb_iff in K.
  rewrite leaves_node. revert ds l K E. induction cs as [|c cs IHc]; intros [|d ds] l K E; cbn in K; try discriminate.
  - injection E as <-. reflexivity.
  - inversion IH as [|? ? Hc Hcs]; subst. injection K as K1 K2.
    destruct (flatten_up_to A (snd c) (snd d)) as [a|] eqn:Ea; [|discriminate].
    match type of E with match ?x with _ => _ end = _ => destruct x as [b|] eqn:Eb; [|discriminate] end.
    injection E as <-. cbn. rewrite !app_length. f_equal; [eapply Hc; eauto|eapply IHc; eauto].
Qed.

Lemma map_Leaf_app l1 : forall l2 (x : list array), l1 ++ l2 = map Leaf x ->
  exists a b, x = a ++ b /\ l1 = map Leaf a /\ l2 = map Leaf b.
Proof.
  induction l1 as [|y l1 IH]; intros l2 x E.
  - exists [], x. auto.
  - destruct x as [|z x]; [discriminate|]. cbn in E. injection E as -> E. destruct (IH _ _ E) as (a & b & -> & -> & ->).
    exists (z :: a), b. auto.
Qed.

Lemma flatten_leaves : forall (t u : tree) l, flatten_up_to A t u = Some (map Leaf l) -> same_keys t u /\ leaves u = l.
Proof.
  induction t as [a|cs IH] using tree_ind'; intros u l E; cbn [flatten_up_to] in E.
  - injection E as E. destruct l as [|b [|? ?]]; try discriminate. injection E as ->. split; [constructor; auto|reflexivity].
  - destruct u as [|ds]; [discriminate|]. destruct (strings_eqb _ _) eqn:K; [|discriminate]. apply strings_eqb_iff in K.
    enough (G : Forall2 (fun c d => fst c = fst d /\ same_keys (snd c) (snd d)) cs ds /\ flat_map (fun c => leaves (snd c)) ds = l).
    { rewrite leaves_node. destruct G. split; [constructor|]; auto. }
    revert ds l K E. induction cs as [|c cs IHc]; intros [|d ds] l K E; cbn in K; try discriminate.
    + destruct l; [|discriminate]. split; [constructor|reflexivity].
    + inversion IH as [|? ? Hc Hcs]; subst. injection K as K1 K2.
      destruct (flatten_up_to A (snd c) (snd d)) as [a|] eqn:Ea; [|discriminate].
      match type of E with match ?x with _ => _ end = _ => destruct x as [b|] eqn:Eb; [|discriminate] end.
      injection E as E. apply map_Leaf_app in E as (x & y & -> & -> & ->).
      destruct (Hc _ _ Ea) as [S1 S2]. destruct (IHc Hcs _ _ K2 Eb) as [T1 T2]. split; [constructor; auto|]. cbn. congruence.
Qed.

Lemma unflatten_leaves : forall (t : tree) ls rest, List.length ls = List.length (leaves t) ->
  exists t', unflatten A t (ls ++ rest) = (t', rest) /\ same_keys t t' /\ leaves t' = ls.
Proof.
  induction t as [a|cs IH] using tree_ind'; intros ls rest L.
  - destruct ls as [|b [|? ?]]; try discriminate. exists (Leaf b). split; [reflexivity|]. split; [constructor; auto|reflexivity].
  - rewrite leaves_node in L. cbn [unflatten].
    enough (G : exists cs', (fix go (cs : list (string * tree)) (leaves : list array) : list (string * tree) * list array :=
           match cs with
           | [] => ([], leaves)
           | c :: cs =>
               let '(x, leaves) := unflatten A (snd c) leaves in
               let '(xs, leaves) := go cs leaves in
               ((fst c, x) :: xs, leaves)
           end) cs (ls ++ rest) = (cs', rest) /\ Forall2 (fun c d => fst c = fst d /\ same_keys (snd c) (snd d)) cs cs' /\
           flat_map (fun c => leaves (snd c)) cs' = ls).
    { destruct G as (cs' & E & F & Lv). exists (Node cs'). rewrite E. split; [reflexivity|]. split; [constructor; exact F|]. rewrite leaves_node. exact Lv. }
    revert ls L. induction cs as [|c cs IHc]; intros ls L.
    + destruct ls; [|discriminate]. exists []. auto.
    + inversion IH as [|? ? Hc Hcs]; subst. cbn in L. rewrite app_length in L.
      set (k := List.length (leaves (snd c))) in *.
      destruct (Hc (firstn k ls) (skipn k ls ++ rest)) as (x & E & S & Lx); [rewrite firstn_length; fold k; lia|].
      destruct (IHc Hcs (skipn k ls)) as (cs' & E' & F & L'); [rewrite skipn_length; lia|].
      exists ((fst c, x) :: cs'). rewrite <- (firstn_skipn k ls) at 1. rewrite <- app_assoc, E, E'. split; [reflexivity|].
      split; [constructor; auto|]. cbn. rewrite Lx, L'. apply firstn_skipn.
Qed.

(** ** columns *)
Lemma all_some_iff {B} (l : list (option B)) r : all_some l = Some r <-> l = map Some r.
Proof.
  revert r. induction l as [|[x|] l IH]; intros r; cbn.
  - split; [intros E; injection E as <-; reflexivity|destruct r; [reflexivity|discriminate]].
  - destruct (all_some l) as [r'|] eqn:E; cbn.
    + split; [intros H; injection H as <-; cbn; f_equal; apply IH; reflexivity|].
      destruct r as [|y r]; [discriminate|]. cbn. intros H. injection H as -> H. apply IH in H. congruence.
    + split; [discriminate|]. destruct r as [|y r]; [discriminate|]. cbn. intros H. injection H as -> H. apply IH in H. discriminate.
  - split; [discriminate|destruct r; discriminate].
Qed.

Lemma map_res_Ok {B C} (f : B -> res C) l r : map_res f l = Ok r <-> Forall2 (fun x y => f x = Ok y) l r.
Proof.
  revert r. induction l as [|x l IH]; intros r; cbn.
  - split; [intros E; injection E as <-; constructor|intros F; inversion F; reflexivity].
  - destruct (f x) as [y|e|] eqn:E; cbn.
    + destruct (map_res f l) as [ys|e|] eqn:E'; cbn.
      * split; [intros H; injection H as <-; constructor; auto; apply IH; reflexivity|].
        intros F. inversion F as [|? y' ? ys' H1 H2]; subst. apply IH in H2. congruence.
      * split; [discriminate|]. intros F. inversion F as [|? y' ? ys' H1 H2]; subst. apply IH in H2. discriminate.
      * split; [discriminate|]. intros F. inversion F as [|? y' ? ys' H1 H2]; subst. apply IH in H2. discriminate.
    + split; [discriminate|]. intros F. inversion F; subst. congruence.
    + split; [discriminate|]. intros F. inversion F; subst. congruence.
Qed.

Lemma map_res_Raise {B C} (f : B -> res C) l e : map_res f l = Raise e -> exists x, In x l /\ f x = Raise e.
Proof.
  induction l as [|x l IH]; cbn; [discriminate|].
  destruct (f x) as [y|e'|] eqn:E; cbn; try discriminate.
  - destruct (map_res f l); cbn; try discriminate. intros H. destruct (IH H) as (z & I & F). eauto.
  - intros H. injection H as ->. eauto.
Qed.

Lemma arrays_Ok (l : list tree) x : arrays A l = Ok x <-> l = map Leaf x.
Proof.
  revert x. induction l as [|[a|cs] l IH]; intros x; cbn.
  - split; [intros E; injection E as <-; reflexivity|destruct x; [reflexivity|discriminate]].
  - destruct (arrays A l) as [y|e|] eqn:E; cbn.
    + split; [intros H; injection H as <-; cbn; f_equal; apply IH; reflexivity|].
      destruct x as [|b x]; [discriminate|]. cbn. intros H. injection H as -> H. apply IH in H. congruence.
    + split; [discriminate|]. destruct x as [|b x]; [discriminate|]. cbn. intros H. injection H as -> H. apply IH in H. discriminate.
    + split; [discriminate|]. destruct x as [|b x]; [discriminate|]. cbn. intros H. injection H as -> H. apply IH in H. discriminate.
  - split; [discriminate|destruct x; discriminate].
Qed.
Lemma arrays_not_Ok (l : list tree) : (exists x, arrays A l = Ok x) \/ arrays A l = Raise TypeError.
Proof.
  induction l as [|[a|cs] l IH]; cbn; eauto. destruct IH as [[x ->]| ->]; cbn; eauto.
Qed.

Lemma shape_eqb_iff a b : shape_eqb a b = true <-> a = b.
Proof. unfold shape_eqb. destruct (list_eq_dec Nat.eq_dec a b); split; congruence. Qed.

(** stacking arrays *)
Lemma jnp_stack_Ok (l : list tree) s : jnp_stack A l = Ok s <->
  exists a rest, l = map Leaf (a :: rest) /\ Forall (fun b => ar_shape A b = ar_shape A a) rest /\
    s = mkarray A (S (List.length rest) :: ar_shape A a) (flat_map (ar_data A) (a :: rest)).
Proof.
  unfold jnp_stack. split.
  - destruct (arrays A l) as [x|e|] eqn:E; cbn; try discriminate. apply arrays_Ok in E. destruct x as [|a rest]; [discriminate|].
    destruct (forallb _ rest) eqn:F; [|discriminate]. intros H. injection H as <-. exists a, rest. split; [exact E|]. split; [|reflexivity].
    rewrite forallb_forall in F. apply Forall_forall. intros b I. apply shape_eqb_iff, F, I.
  - intros (a & rest & E & F & ->). apply arrays_Ok in E. rewrite E. cbn [bind].
    assert (forallb (fun b => shape_eqb (ar_shape A b) (ar_shape A a)) rest = true) as ->; [|reflexivity].
    apply forallb_forall. intros b I. apply shape_eqb_iff. rewrite Forall_forall in F. auto.
Qed.
Lemma jnp_stack_errors (l : list tree) : (exists s, jnp_stack A l = Ok s) \/ jnp_stack A l = Raise ValueError \/
  (jnp_stack A l = Raise TypeError /\ forall x, l <> map Leaf x).
Proof.
  destruct (arrays_not_Ok l) as [[x E]|E]; unfold jnp_stack; rewrite E; cbn.
  - destruct x as [|a rest]; [auto|]. destruct (forallb _ rest); eauto.
  - right. right. split; [reflexivity|]. intros x K. apply arrays_Ok in K. congruence.
Qed.

Lemma column_of (rows : list (list tree)) k n : (forall r, In r rows -> List.length r = n) -> (k < n)%nat ->
  forall d, flat_map (fun r => match nth_error r k with Some x => [x] | None => [] end) rows = map (fun r => nth k r d) rows.
Proof.
  intros H K d. induction rows as [|r rows IH]; [reflexivity|]. cbn.
  assert (L : List.length r = n) by (apply H; left; reflexivity).
  rewrite (nth_error_nth' r d) by lia. cbn. f_equal. apply IH. intros r' I. apply H. right; exact I.
Qed.

Lemma same_keys_sym : forall t u : tree, same_keys t u -> same_keys u t.
Proof.
  induction t as [a|cs IH] using tree_ind'; intros u E; inversion E as [|? ds G]; subst; [constructor; auto|]. constructor.
  clear E. induction G as [|c d cs ds [K E] G IHG]; constructor; inversion IH as [|? ? Hc Hcs]; subst; auto. split; [auto|]. apply Hc. exact E.
Qed.
Lemma same_keys_trans : forall t u v : tree, same_keys t u -> same_keys u v -> same_keys t v.
Proof.
  induction t as [a|cs IH] using tree_ind'; intros u v E F.
  - inversion E; subst. inversion F; subst. constructor; auto.
  - inversion E as [|? ds G]; subst. inversion F as [|? fs Hf]; subst. constructor. clear E F. revert fs Hf.
    induction G as [|c d cs ds [K E] G IHG]; intros fs Hf; inversion Hf as [|? f ? fs' [K' E'] Hf']; subst; constructor;
    inversion IH as [|? ? Hc Hcs]; subst; auto. split; [congruence|]. eapply Hc; eauto.
Qed.

Notation none := (mkarray A [] []).
Lemma Forall2_nth_intro {B C} (P : B -> C -> Prop) (d : B) (e : C) l : forall r, List.length l = List.length r ->
  (forall k, (k < List.length l)%nat -> P (nth k l d) (nth k r e)) -> Forall2 P l r.
Proof.
  induction l as [|x l IH]; intros [|y r] L H; try discriminate; constructor.
  - apply (H 0%nat). cbn. lia.
  - apply IH; [cbn in L; lia|]. intros k K. apply (H (S k)). cbn. lia.
Qed.
Lemma Forall2_nth_elim {B C} (P : B -> C -> Prop) (d : B) (e : C) l r k : Forall2 P l r -> (k < List.length l)%nat -> P (nth k l d) (nth k r e).
Proof.
  intros F. revert k. induction F as [|x y l r H F IH]; intros [|k] K; cbn in *; auto; try lia. apply IH. lia.
Qed.

Lemma rows_of (t : tree) ts : Forall (same_keys t) ts ->
  all_some (map (flatten_up_to A t) ts) = Some (map (fun u => map Leaf (leaves u)) ts).
Proof.
  intros F. apply all_some_iff. rewrite map_map. apply map_ext_in. intros u I. rewrite Forall_forall in F. apply flatten_same. auto.
Qed.

Lemma columns_of (t : tree) ts : Forall (same_keys t) ts ->
  columns A (List.length (leaves t)) (map (fun u => map Leaf (leaves u)) ts) =
  map (fun k => map Leaf (map (fun u => nth k (leaves u) none) ts)) (seq 0 (List.length (leaves t))).
Proof.
  intros F. unfold columns. apply map_ext_in. intros k K. apply in_seq in K.
  rewrite (column_of _ k (List.length (leaves t))) with (d := Leaf none); [|intros r I|lia].
  - rewrite !map_map. apply map_ext. intros u. apply map_nth.
  - apply in_map_iff in I as (u & <- & I). rewrite map_length. symmetry. apply same_keys_length. rewrite Forall_forall in F. auto.
Qed.

Lemma data_split (ts : list tree) j k u shape : nth_error ts k = Some u ->
  (forall v, In v ts -> List.length (ar_data A (nth j (leaves v) none)) = fold_right Nat.mul 1%nat shape) ->
  exists before after, List.length before = (k * fold_right Nat.mul 1%nat shape)%nat /\
    flat_map (ar_data A) (map (fun v => nth j (leaves v) none) ts) = before ++ ar_data A (nth j (leaves u) none) ++ after.
Proof.
  revert k. induction ts as [|v ts IH]; intros [|k] E H; cbn in E; try discriminate.
  - injection E as ->. exists [], (flat_map (ar_data A) (map (fun v => nth j (leaves v) none) ts)). split; reflexivity.
  - destruct (IH k E) as (b & a & Lb & Eq); [intros w I; apply H; right; exact I|].
    exists (ar_data A (nth j (leaves v) none) ++ b), a. split; [rewrite app_length, Lb, H by (left; reflexivity); reflexivity|].
    cbn. rewrite Eq, app_assoc. reflexivity.
Qed.

Lemma all_arrays_leaves (P : array -> Prop) : forall t, all_arrays P t <-> Forall P (leaves t).
Proof.
  induction t as [a|cs IH] using tree_ind'.
  - split; intros H; inversion H; subst; cbn; auto; constructor; auto.
  - rewrite leaves_node. split; intros H.
    + inversion H as [|? F]; subst. clear H. induction F as [|c cs H F IHF]; cbn; [constructor|].
      inversion IH as [|? ? Hc Hcs]; subst. apply Forall_app. split; [apply Hc; exact H|apply IHF; auto].
    + constructor. induction cs as [|c cs IHc]; constructor; inversion IH as [|? ? Hc Hcs]; subst; cbn in H; apply Forall_app in H as [Ha Hb]; [apply Hc; exact Ha|apply IHc; auto].
Qed.

Lemma alike_keys (t u : tree) : alike t u -> same_keys t u.
Proof. intros H. apply everywhere_leaves in H. tauto. Qed.

(** ** the stacked tree *)
Lemma stack_ok (t : tree) ts : Forall (alike t) ts ->
  exists st, tree_stack A (t :: ts) = Ok st /\ same_keys t st /\
    leaves st = map (fun k => mkarray A (S (List.length ts) :: ar_shape A (nth k (leaves t) none))
                                (flat_map (ar_data A) (map (fun u => nth k (leaves u) none) (t :: ts)))) (seq 0 (List.length (leaves t))).
Proof.
  intros F. assert (Kt : same_keys t t).
  { clear. induction t as [a|cs IH] using tree_ind'; constructor; auto. induction IH; constructor; auto. }
  assert (K : Forall (same_keys t) (t :: ts)) by (constructor; [exact Kt|eapply Forall_impl; [|exact F]; intros u; apply alike_keys]).
  set (ls := map _ (seq 0 (List.length (leaves t)))).
  destruct (unflatten_leaves t ls []) as (st & E & S & L).
  { unfold ls. rewrite map_length, seq_length. reflexivity. }
  rewrite app_nil_r in E. exists st. split; [|split; [exact S|exact L]].
  unfold tree_stack. rewrite (rows_of t (t :: ts) K). cbn [hd map]. rewrite map_length.
  change (map Leaf (leaves t) :: map (fun u => map Leaf (leaves u)) ts) with (map (fun u => map Leaf (leaves u)) (t :: ts)).
  rewrite (columns_of t (t :: ts) K).
  assert (M : map_res (jnp_stack A) (map (fun k => map Leaf (map (fun u => nth k (leaves u) none) (t :: ts))) (seq 0 (List.length (leaves t)))) = Ok ls).
  { apply map_res_Ok. unfold ls. assert (Q : forall k, In k (seq 0 (List.length (leaves t))) -> (k < List.length (leaves t))%nat) by (intros k I; apply in_seq in I; lia).
    revert Q. generalize (seq 0 (List.length (leaves t))) as l. induction l as [|k l IHl]; intros Q; cbn [map]; constructor; [|apply IHl; intros; apply Q; right; auto].
    apply jnp_stack_Ok. exists (nth k (leaves t) none), (map (fun u => nth k (leaves u) none) ts). split; [reflexivity|].
    split; [|rewrite map_length; reflexivity]. apply Forall_forall. intros b I. apply in_map_iff in I as (u & <- & I).
    rewrite Forall_forall in F. specialize (F u I). apply everywhere_leaves in F as [_ F]. symmetry.
    apply (Forall2_nth_elim _ none none _ _ k F). apply Q. left; reflexivity. }
  rewrite M. cbn [bind]. rewrite E. reflexivity.
Qed.
End Facts.

(** members that are alike are stacked, and each is at its place: the stacked
    tree has their keys, and every array in it has the arrays of the members, in
    order, as its parts along a new first axis *)
Theorem stacked_members : forall A (t : tree A) ts, Forall (alike t) ts -> Forall (all_arrays full) (t :: ts) ->
  exists st, tree_stack A (t :: ts) = Ok st /\
    forall k u, nth_error (t :: ts) k = Some u -> everywhere (part (S (List.length ts)) k) st u.
Proof.
  intros A t ts F H. destruct (stack_ok t ts F) as (st & E & S & L). exists st. split; [exact E|]. intros k u Hk.
  assert (Ku : same_keys t u /\ forall j, (j < List.length (leaves t))%nat -> ar_shape A (nth j (leaves t) (mkarray A [] [])) = ar_shape A (nth j (leaves u) (mkarray A [] []))).
  { destruct k as [|k]; cbn in Hk.
    - injection Hk as <-. split; [|auto]. eapply same_keys_trans; [exact S|apply same_keys_sym; exact S].
    - rewrite Forall_forall in F. specialize (F u (nth_error_In _ _ Hk)). apply everywhere_leaves in F as [F1 F2]. split; [exact F1|].
      intros j J. apply (Forall2_nth_elim _ _ _ _ _ j F2 J). }
  destruct Ku as [Ku Kj]. apply everywhere_leaves. split; [eapply same_keys_trans; [apply same_keys_sym; exact S|exact Ku]|].
  apply (Forall2_nth_intro _ (mkarray A [] []) (mkarray A [] [])).
  { rewrite L, map_length, seq_length. apply same_keys_length; exact Ku. }
  rewrite L, map_length, seq_length. intros j J. 
  assert (Full : forall v, In v (t :: ts) -> (j < List.length (leaves v))%nat -> full (nth j (leaves v) (mkarray A [] []))).
  { intros v I Jv. rewrite Forall_forall in H. specialize (H v I). apply all_arrays_leaves in H. rewrite Forall_forall in H. apply H, nth_In, Jv. }
  assert (All : forall v, In v (t :: ts) -> List.length (leaves v) = List.length (leaves t) /\ ar_shape A (nth j (leaves v) (mkarray A [] [])) = ar_shape A (nth j (leaves t) (mkarray A [] []))).
  { intros v [<-|I]; [auto|]. rewrite Forall_forall in F. specialize (F v I). apply everywhere_leaves in F as [F1 F2].
    split; [symmetry; apply same_keys_length; exact F1|]. symmetry. apply (Forall2_nth_elim _ _ _ _ _ j F2 J). }
  rewrite (nth_indep _ _ ((fun k0 => mkarray A (Datatypes.S (List.length ts) :: ar_shape A (nth k0 (leaves t) (mkarray A [] [])))
                                (flat_map (ar_data A) (map (fun u => nth k0 (leaves u) (mkarray A [] [])) (t :: ts)))) 0%nat)) by (rewrite map_length, seq_length; exact J).
  rewrite (map_nth (fun k0 => mkarray A (Datatypes.S (List.length ts) :: ar_shape A (nth k0 (leaves t) (mkarray A [] [])))
                                (flat_map (ar_data A) (map (fun u => nth k0 (leaves u) (mkarray A [] [])) (t :: ts)))) (seq 0 (List.length (leaves t))) 0%nat j).
  rewrite seq_nth by exact J. cbn [Nat.add].
  pose proof (nth_error_In _ _ Hk) as Iu. destruct (All u Iu) as [Lu Su].
  split; [cbn [ar_shape]; rewrite Su; reflexivity|]. split; [apply Full; [exact Iu|lia]|].
  cbn [ar_data]. apply (data_split (t :: ts) j k u); [exact Hk|].
  intros v I. destruct (All v I) as [Lv Sv]. rewrite Su, <- Sv. apply Full; [exact I|lia].
Qed.
Print Assumptions stacked_members.

Lemma chunks_length {A} m : forall n (l : list A), List.length (chunks A n m l) = n.
Proof. induction n as [|n IH]; intros l; cbn; auto. Qed.
Lemma chunks_nth {A} m : forall n k (before x after : list A), (k < n)%nat -> List.length before = (k * m)%nat -> List.length x = m ->
  nth k (chunks A n m (before ++ x ++ after)) [] = x.
Proof.
  induction n as [|n IH]; intros [|k] before x after K B X; try lia; cbn [chunks nth].
  - destruct before; [|discriminate]. cbn. rewrite firstn_app, <- X, firstn_all, Nat.sub_diag. cbn. apply app_nil_r.
  - assert (E : skipn m (before ++ x ++ after) = skipn m before ++ x ++ after).
    { rewrite skipn_app. f_equal. replace (m - List.length before)%nat with 0%nat by (cbn in B; lia). reflexivity. }
    rewrite E. apply IH; [lia|rewrite skipn_length; cbn in B; lia|exact X].
Qed.

Definition place (n : nat) (i : Z) : nat :=
  Z.to_nat (Z.max 0 (Z.min (if (i <? 0)%Z then i + Z.of_nat n else i) (Z.of_nat n - 1)))%Z.
Lemma place_lt n i : (0 < n)%nat -> (place n i < n)%nat.
Proof. unfold place. intros N. destruct (i <? 0)%Z eqn:E; lia. Qed.

Lemma part_index {A} n i (a b : array A) : (0 < n)%nat -> part n (place n i) a b -> array_index A i a = Ok b.
Proof.
  intros N (Sh & F & before & after & Lb & E). unfold array_index. rewrite Sh. destruct n as [|n]; [lia|].
  f_equal. destruct b as [shape data]. cbn [ar_shape ar_data] in *. f_equal.
  unfold jnp_index. rewrite chunks_length. fold (place (S n) i). rewrite E. apply chunks_nth; [apply place_lt; lia|exact Lb|exact F].
Qed.

Lemma tree_index_everywhere {A} i (P : array A -> array A -> Prop) : (forall a b, P a b -> array_index A i a = Ok b) ->
  forall t u, everywhere P t u -> tree_index A i t = Ok u.
Proof.
  intros H. induction t as [a|cs IH] using tree_ind'; intros u E; inversion E as [? b Hab|? ds G]; subst; cbn [tree_index].
  - rewrite (H _ _ Hab). reflexivity.
  - clear E. match goal with |- fmap_res _ ?g = _ => assert (Eg : g = Ok ds) end; [|rewrite Eg; reflexivity].
    induction G as [|c d cs ds [K E] G IHG]; [reflexivity|]. inversion IH as [|? ? Hc Hcs]; subst.
    rewrite (Hc _ E). cbn [bind]. rewrite (IHG Hcs). cbn [bind]. destruct d. cbn in *. subst. reflexivity.
Qed.

Lemma last_any {B} : forall (l : list B) v a b, last (v :: l) a = last (v :: l) b.
Proof. induction l as [|w l IH]; intros v a b; [reflexivity|]. exact (IH w a b). Qed.
Lemma nth_error_last {B} : forall (l : list B) t, nth_error (t :: l) (List.length l) = Some (last l t).
Proof.
  induction l as [|u l IH]; intros t; [reflexivity|]. change (nth_error (u :: l) (List.length l) = Some (last (u :: l) t)).
  rewrite (IH u). f_equal. destruct l as [|v l]; [reflexivity|]. exact (last_any l v u t).
Qed.

(** so that asking the stacked tree for a member gives that member; places
    count from the end if negative, and the nearest member is given for places
    that do not exist *)
Theorem stacked_index : forall A (t : tree A) ts, Forall (alike t) ts -> Forall (all_arrays full) (t :: ts) ->
  exists st, tree_stack A (t :: ts) = Ok st /\
  (forall k u, nth_error (t :: ts) k = Some u ->
     tree_index A (Z.of_nat k) st = Ok u /\ tree_index A (Z.of_nat k - Z.of_nat (S (List.length ts)))%Z st = Ok u) /\
  (forall i, (i < - Z.of_nat (S (List.length ts)))%Z -> tree_index A i st = Ok t) /\
  (forall i, (Z.of_nat (S (List.length ts)) <= i)%Z -> tree_index A i st = Ok (last ts t)).
Proof.
  intros A t ts F H. destruct (stacked_members A t ts F H) as (st & E & M). exists st. split; [exact E|].
  assert (X : forall i u, nth_error (t :: ts) (place (S (List.length ts)) i) = Some u -> tree_index A i st = Ok u).
  { intros i u Hu. apply (tree_index_everywhere i (part (S (List.length ts)) (place (S (List.length ts)) i))); [|apply M; exact Hu].
    intros a b. apply part_index. lia. }
  split; [|split].
  - intros k u Hk. assert (L : (k < S (List.length ts))%nat) by (change (S (List.length ts)) with (List.length (t :: ts)); apply nth_error_Some; congruence).
    split; apply X.
    + replace (place (S (List.length ts)) (Z.of_nat k)) with k; [exact Hk|]. unfold place.
      destruct (Z.ltb_spec (Z.of_nat k)%Z 0%Z); lia.
    + replace (place (S (List.length ts)) (Z.of_nat k - Z.of_nat (S (List.length ts)))) with k; [exact Hk|]. unfold place.
      destruct (Z.ltb_spec (Z.of_nat k - Z.of_nat (S (List.length ts)))%Z 0%Z); lia.
  - intros i L. apply X. replace (place (S (List.length ts)) i) with 0%nat; [reflexivity|]. unfold place. destruct (Z.ltb_spec (i)%Z 0%Z); lia.
  - intros i L. apply X. replace (place (S (List.length ts)) i) with (List.length ts).
    + apply nth_error_last.
    + unfold place. destruct (Z.ltb_spec (i)%Z 0%Z); lia.
Qed.
Print Assumptions stacked_index.

(** the list of members is what other parts of the model keep of an ensemble *)
Theorem stacked_is_list : forall A (t : tree A) ts, Forall (alike t) ts -> Forall (all_arrays full) (t :: ts) ->
  exists st, tree_stack A (t :: ts) = Ok st /\ forall i, tree_index A i st = Ok (jnp_index (t :: ts) i t).
Proof.
  intros A t ts F H. destruct (stacked_members A t ts F H) as (st & E & M). exists st. split; [exact E|]. intros i.
  apply (tree_index_everywhere i (part (S (List.length ts)) (place (S (List.length ts)) i))); [intros a b; apply part_index; lia|].
  apply M. unfold jnp_index. change (List.length (t :: ts)) with (S (List.length ts)). fold (place (S (List.length ts)) i).
  apply nth_error_nth'. cbn [List.length]. apply place_lt. lia.
Qed.
Print Assumptions stacked_is_list.

(** anything else cannot be stacked: no members are a TypeError, members that
    differ in their keys or shapes a ValueError, or a TypeError if one has keys
    where another has an array *)
Theorem stack_errors : forall A,
  tree_stack A [] = Raise TypeError /\
  forall (t : tree A) ts,
    ((exists st, tree_stack A (t :: ts) = Ok st) <-> Forall (alike t) ts) /\
    (Forall (same_keys t) ts -> ~ Forall (alike t) ts -> tree_stack A (t :: ts) = Raise ValueError) /\
    (~ Forall (alike t) ts -> tree_stack A (t :: ts) = Raise ValueError \/ tree_stack A (t :: ts) = Raise TypeError).
Proof.
  intros A. split; [reflexivity|]. intros t ts.
  assert (Kt : same_keys t t).
  { clear. induction t as [a|cs IH] using tree_ind'; constructor; auto. induction IH; constructor; auto. }
  assert (Fwd : forall st, tree_stack A (t :: ts) = Ok st -> Forall (alike t) ts).
  { intros st. unfold tree_stack. destruct (all_some _) as [rows|] eqn:R; [|discriminate]. apply all_some_iff in R.
    destruct (map_res _ _) as [ls|e|] eqn:M; cbn; try discriminate. intros _. apply map_res_Ok in M.
    destruct rows as [|r0 rows]; [discriminate|]. cbn [map] in R. injection R as R0 R. cbn [hd] in M.
    rewrite (flatten_same t t Kt) in R0. injection R0 as <-. rewrite map_length in M.
    set (n := List.length (leaves t)) in *.
    assert (Ln : forall r, In r (map (Leaf A) (leaves t) :: rows) -> List.length r = n).
    { intros r [<-|I]; [apply map_length|]. apply (in_map Some) in I. rewrite <- R in I. apply in_map_iff in I as (u & Eu & _).
      eapply flatten_length; eauto. }
    assert (Col : forall k, (k < n)%nat -> exists a rest,
       map (fun r => nth k r (Leaf A (mkarray A [] []))) (map (Leaf A) (leaves t) :: rows) = map (Leaf A) (a :: rest) /\
       Forall (fun b => ar_shape A b = ar_shape A a) rest).
    { intros k K. unfold columns in M.
      assert (Lk : (k < List.length (seq 0 n))%nat) by (rewrite seq_length; exact K).
      pose proof (Forall2_nth_elim _ [] (mkarray A [] []) _ _ k M ltac:(rewrite map_length; exact Lk)) as J.
      rewrite (nth_indep _ [] ((fun k => flat_map (fun r => match nth_error r k with Some x => [x] | None => [] end) (map (Leaf A) (leaves t) :: rows)) 0%nat)) in J by (rewrite map_length; exact Lk).
      rewrite (map_nth (fun k => flat_map (fun r => match nth_error r k with Some x => [x] | None => [] end) (map (Leaf A) (leaves t) :: rows))) in J.
      rewrite seq_nth in J by exact K. cbn [Nat.add] in J.
      rewrite (column_of _ k n Ln K (Leaf A (mkarray A [] []))) in J. apply jnp_stack_Ok in J as (a & rest & E & F & _). eauto. }
    apply Forall_forall. intros u I.
    assert (exists r, In r rows /\ flatten_up_to A t u = Some r) as (r & Ir & Er).
    { apply (in_map (flatten_up_to A t)) in I. rewrite R in I. apply in_map_iff in I as (r & Er & Ir). eauto. }
    assert (Lr : List.length r = n) by (apply Ln; right; exact Ir).
    assert (Leafy : forall k, (k < n)%nat -> exists b, nth k r (Leaf A (mkarray A [] [])) = Leaf A b /\ ar_shape A b = ar_shape A (nth k (leaves t) (mkarray A [] []))).
    { intros k K. destruct (Col k K) as (a & rest & E & F). cbn [map] in E. injection E as E0 E.
      rewrite map_nth in E0. injection E0 as E0. apply (in_map (fun r => nth k r (Leaf A (mkarray A [] [])))) in Ir. rewrite E in Ir.
      apply in_map_iff in Ir as (b & Eb & Ib). exists b. split; [auto|]. rewrite Forall_forall in F. rewrite E0. auto. }
    assert (exists l, r = map (Leaf A) l /\ Forall2 (fun a b => ar_shape A a = ar_shape A b) (leaves t) l) as (l & -> & Fl).
    { clear - Lr Leafy. subst n. revert r Lr Leafy. generalize (leaves t) as ls. induction ls as [|a ls IH]; intros [|x r] L Y; try discriminate.
      - exists []. auto.
      - destruct (Y 0%nat ltac:(cbn; lia)) as (b & Eb & Sb). cbn in Eb, Sb.
        destruct (IH r) as (l & -> & Fl); [cbn in L; lia|intros k K; apply (Y (S k)); cbn; lia|].
        exists (b :: l). subst. split; [reflexivity|constructor; auto]. }
    apply flatten_leaves in Er as [Ks <-]. apply everywhere_leaves. auto. }
  assert (Bwd : Forall (alike t) ts -> exists st, tree_stack A (t :: ts) = Ok st).
  { intros F. destruct (stack_ok t ts F) as (st & E & _). eauto. }
  split; [split; [intros [st E]; eauto|exact Bwd]|].
  assert (Err : forall e, tree_stack A (t :: ts) = Raise e -> e = ValueError \/ (e = TypeError /\ ~ Forall (same_keys t) ts)).
  { intros e. unfold tree_stack. destruct (all_some _) as [rows|] eqn:R; [|intros E; injection E as <-; auto].
    destruct (map_res _ _) as [ls|e'|] eqn:M; cbn; try discriminate. intros E. injection E as ->.
    apply map_res_Raise in M as (col & Ic & Ec). destruct (jnp_stack_errors col) as [[s Es]|[Es|[Es N]]]; try congruence.
    - left. congruence.
    - right. split; [congruence|]. intros F. assert (K : Forall (same_keys t) (t :: ts)) by (constructor; auto).
      rewrite (rows_of t (t :: ts) K) in R. injection R as <-. cbn [hd map] in Ic. rewrite map_length in Ic.
      change (map (Leaf A) (leaves t) :: map (fun u => map (Leaf A) (leaves u)) ts) with (map (fun u => map (Leaf A) (leaves u)) (t :: ts)) in Ic.
      rewrite (columns_of t (t :: ts) K) in Ic. apply in_map_iff in Ic as (k & <- & _). eapply N. reflexivity. }
  assert (Tot : tree_stack A (t :: ts) <> OutOfFuel).
  { unfold tree_stack. destruct (all_some _) as [rows|]; [|discriminate].
    destruct (map_res _ _) as [ls|e'|] eqn:M; cbn; try discriminate. exfalso.
    revert M. generalize (columns A (List.length (hd [] rows)) rows) as l. induction l as [|x l IH]; cbn; [discriminate|].
    destruct (jnp_stack_errors x) as [[s Es]|[Es|[Es _]]]; rewrite Es; cbn; try discriminate.
    destruct (map_res (jnp_stack A) l); cbn; try discriminate. exact IH. }
  split.
  - intros K N. destruct (tree_stack A (t :: ts)) as [st|e|] eqn:E; [exfalso; eauto| |congruence].
    destruct (Err e eq_refl) as [->|[_ C]]; [reflexivity|contradiction].
  - intros N. destruct (tree_stack A (t :: ts)) as [st|e|] eqn:E; [exfalso; eauto| |congruence].
    destruct (Err e eq_refl) as [->|[-> _]]; auto.
Qed.
Print Assumptions stack_errors.

(** C128: what was not stacked has no members: a number that is not in an array
    with a first axis cannot be taken apart *)
Theorem index_unstacked {A} i (t : tree A) :
  let stacked := fun a : array A => exists n shape, ar_shape A a = S n :: shape in
  (all_arrays stacked t -> exists u, tree_index A i t = Ok u) /\
  (~ all_arrays stacked t -> tree_index A i t = Raise IndexError).
Proof.
  intros stacked. enough (D : (all_arrays stacked t /\ exists u, tree_index A i t = Ok u) \/ (~ all_arrays stacked t /\ tree_index A i t = Raise IndexError)).
  { destruct D as [[H E]|[H E]]; split; intros K; auto; contradiction. }
  induction t as [a|cs IH] using tree_ind'.
  - cbn [tree_index]. unfold array_index. destruct (ar_shape A a) as [|[|n] shape] eqn:E; cbn.
    + right. split; [|reflexivity]. intros H. inversion H as [? (m & sh & F)|]; subst. congruence.
    + right. split; [|reflexivity]. intros H. inversion H as [? (m & sh & F)|]; subst. congruence.
    + left. split; [|eauto]. constructor. exists n, shape. exact E.
  - enough (D : (Forall (fun c => all_arrays stacked (snd c)) cs /\ exists ds,
        (fix go (cs : list (string * tree A)) : res (list (string * tree A)) :=
            match cs with
            | [] => Ok []
            | c :: cs => x <- tree_index A i (snd c) ;; xs <- go cs ;; Ok ((fst c, x) :: xs)
            end) cs = Ok ds) \/
      (~ Forall (fun c => all_arrays stacked (snd c)) cs /\
        (fix go (cs : list (string * tree A)) : res (list (string * tree A)) :=
            match cs with
            | [] => Ok []
            | c :: cs => x <- tree_index A i (snd c) ;; xs <- go cs ;; Ok ((fst c, x) :: xs)
            end) cs = Raise IndexError)).
    { cbn [tree_index]. destruct D as [[H [ds E]]|[H E]].
      - left. split; [constructor; exact H|]. rewrite E. cbn. eauto.
      - right. split; [|rewrite E; reflexivity]. intros K. inversion K; subst. contradiction. }
    induction IH as [|c cs Hc _ IHcs]; [left; split; [constructor|eauto]|].
    destruct Hc as [[H [u E]]|[H E]].
    + rewrite E. cbn [bind]. destruct IHcs as [[Hs [ds Es]]|[Hs Es]]; rewrite Es; cbn [bind].
      * left. split; [constructor; auto|eauto].
      * right. split; [|reflexivity]. intros K. inversion K; subst. contradiction.
    + rewrite E. cbn [bind]. right. split; [|reflexivity]. intros K. inversion K; subst. contradiction.
Qed.
Print Assumptions index_unstacked.

(** two members with a matrix and a vector, and one with another vector *)
Example stacking_nonvacuous :
  let member (w b : list nat) := Node nat [("linear"%string, Node nat [("w"%string, Leaf nat (mkarray nat [2; 2] w)); ("b"%string, Leaf nat (mkarray nat [2] b))])]%nat in
  let one := member [1; 2; 3; 4]%nat [5; 6]%nat in let two := member [11; 12; 13; 14]%nat [15; 16]%nat in
  let other := Node nat [("linear"%string, Node nat [("w"%string, Leaf nat (mkarray nat [2; 2] [1; 2; 3; 4])); ("b"%string, Leaf nat (mkarray nat [3] [5; 6; 7]))])]%nat in
  alike one two /\ all_arrays full one /\ all_arrays full two /\
  tree_stack nat [one; two] =
    Ok (Node nat [("linear"%string, Node nat [("w"%string, Leaf nat (mkarray nat [2; 2; 2] [1; 2; 3; 4; 11; 12; 13; 14]));
                                              ("b"%string, Leaf nat (mkarray nat [2; 2] [5; 6; 15; 16]))])]%nat) /\
  same_keys one other /\ ~ alike one other /\ tree_stack nat [one; other] = Raise ValueError /\
  tree_stack nat [one; Node nat [("linear"%string, Node nat [("w"%string, one); ("b"%string, two)])]] = Raise TypeError /\
  tree_stack nat [one; Leaf nat (mkarray nat [] [1%nat])] = Raise ValueError.
Proof.
  cbv zeta.
  split; [repeat (constructor || split)|]. split; [repeat (constructor || split)|]. split; [repeat (constructor || split)|].
  split; [reflexivity|]. split; [repeat (constructor || split)|].
  split.
  { intros K. inversion K as [|? ? F]; subst. inversion F as [|? ? ? ? [_ G] _]; subst. cbn in G. inversion G as [|? ? F2]; subst.
    inversion F2 as [|? ? ? ? _ F3]; subst. inversion F3 as [|? ? ? ? [_ G2] _]; subst. cbn in G2. inversion G2 as [? ? X|]; subst. discriminate X. }
  repeat split.
Qed.
