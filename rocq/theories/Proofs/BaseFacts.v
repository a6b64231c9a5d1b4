(** Facts about the Base vocabulary. *)
From Coq Require Import Reals ZArith List Bool Lia Lra Arith Permutation.
From Verif Require Import Base.Prelude.
Import ListNotations.
Open Scope R_scope.

(** * Boolean comparisons *)
Lemma Rleb_true x y : Rleb x y = true <-> x <= y.
Proof. unfold Rleb; destruct (Rle_dec x y); split; intro; try easy; lra. Qed.
Lemma Rleb_false x y : Rleb x y = false <-> y < x.
Proof. unfold Rleb; destruct (Rle_dec x y); split; intro; try easy; lra. Qed.
Lemma Rltb_true x y : Rltb x y = true <-> x < y.
Proof. unfold Rltb; destruct (Rlt_dec x y); split; intro; try easy; lra. Qed.
Lemma Rltb_false x y : Rltb x y = false <-> y <= x.
Proof. unfold Rltb; destruct (Rlt_dec x y); split; intro; try easy; lra. Qed.
Lemma Reqb_true x y : Reqb x y = true <-> x = y.
Proof. unfold Reqb; destruct (Req_EM_T x y); split; intro; try easy; lra. Qed.
Lemma Reqb_false x y : Reqb x y = false <-> x <> y.
Proof. unfold Reqb; destruct (Req_EM_T x y); split; intro; try easy; lra. Qed.

(** turn boolean comparisons in hypotheses and goal into propositions *)
Ltac rb :=
  repeat match goal with
  | H : Rleb _ _ = true |- _ => apply Rleb_true in H
  | H : Rleb _ _ = false |- _ => apply Rleb_false in H
  | H : Rltb _ _ = true |- _ => apply Rltb_true in H
  | H : Rltb _ _ = false |- _ => apply Rltb_false in H
  | H : Reqb _ _ = true |- _ => apply Reqb_true in H
  | H : Reqb _ _ = false |- _ => apply Reqb_false in H
  | H : (_ && _)%bool = true |- _ => apply andb_true_iff in H; destruct H
  | |- Rleb _ _ = true => apply Rleb_true
  | |- Rleb _ _ = false => apply Rleb_false
  | |- Rltb _ _ = true => apply Rltb_true
  | |- Rltb _ _ = false => apply Rltb_false
  | |- Reqb _ _ = true => apply Reqb_true
  | |- Reqb _ _ = false => apply Reqb_false
  end.

(** decide all real comparisons in the goal by linear arithmetic *)
Ltac rdecide :=
  repeat match goal with
  | |- context [Rltb ?a ?b] =>
      first [ rewrite (proj2 (Rltb_true a b)) by lra
            | rewrite (proj2 (Rltb_false a b)) by lra ]
  | |- context [Rleb ?a ?b] =>
      first [ rewrite (proj2 (Rleb_true a b)) by lra
            | rewrite (proj2 (Rleb_false a b)) by lra ]
  end.

(** * clip *)
Lemma clip_range x lo hi : lo <= hi -> lo <= clip x lo hi <= hi.
Proof.
  intro H; unfold clip, Rmin, Rmax.
  destruct (Rle_dec x lo), (Rle_dec _ hi); lra.
Qed.
Lemma clip_id x lo hi : lo <= x <= hi -> clip x lo hi = x.
Proof.
  intro H; unfold clip, Rmin, Rmax.
  destruct (Rle_dec x lo), (Rle_dec _ hi); lra.
Qed.
Lemma clip_low x lo hi : lo <= hi -> x <= lo -> clip x lo hi = lo.
Proof.
  intros H H1; unfold clip, Rmin, Rmax.
  destruct (Rle_dec x lo), (Rle_dec _ hi); lra.
Qed.
Lemma clip_high x lo hi : lo <= hi -> hi <= x -> clip x lo hi = hi.
Proof.
  intros H H1; unfold clip, Rmin, Rmax.
  destruct (Rle_dec x lo), (Rle_dec _ hi); lra.
Qed.
Lemma clip_mono x y lo hi : x <= y -> clip x lo hi <= clip y lo hi.
Proof.
  intro H; unfold clip, Rmin, Rmax.
  destruct (Rle_dec x lo), (Rle_dec y lo);
  repeat match goal with |- context [Rle_dec ?a ?b] => destruct (Rle_dec a b) end; lra.
Qed.

(** * points *)
Lemma pt_eq p q : px p = px q -> py p = py q -> p = q.
Proof. destruct p, q; simpl; intros; subst; reflexivity. Qed.
Lemma pt_eta p : mkpt (px p) (py p) = p.
Proof. destruct p; reflexivity. Qed.
Lemma pt_eq_dec (p q : pt) : {p = q} + {p <> q}.
Proof.
  destruct p as [a b], q as [c d].
  destruct (Req_EM_T a c), (Req_EM_T b d); subst; auto;
    right; intro H; inversion H; contradiction.
Qed.

Lemma psq_nonneg p : 0 <= psq p.
Proof. unfold psq; nra. Qed.
Lemma psq_zero p : psq p = 0 -> p = pzero.
Proof. unfold psq; intro H; apply pt_eq; simpl; nra. Qed.
Lemma pnorm_nonneg p : 0 <= pnorm p.
Proof. apply sqrt_pos. Qed.
Lemma pnorm_sq p : pnorm p * pnorm p = psq p.
Proof. apply sqrt_sqrt, psq_nonneg. Qed.
Lemma pnorm_zero p : pnorm p = 0 <-> p = pzero.
Proof.
  split; intro H.
  - apply psq_zero. rewrite <- pnorm_sq, H; ring.
  - subst; unfold pnorm, psq, pzero; simpl.
    replace (0 * 0 + 0 * 0) with 0 by ring. apply sqrt_0.
Qed.
Lemma pdist_nonneg p q : 0 <= pdist p q.
Proof. apply pnorm_nonneg. Qed.
Lemma pdist_sym p q : pdist p q = pdist q p.
Proof. unfold pdist, pnorm, psq, psub; simpl; f_equal; ring. Qed.
Lemma pdist_zero p q : pdist p q = 0 <-> p = q.
Proof.
  unfold pdist; rewrite pnorm_zero; split; intro H.
  - unfold psub, pzero in H; injection H; intros; apply pt_eq; lra.
  - subst; unfold psub, pzero; f_equal; ring.
Qed.
Lemma pdist_self p : pdist p p = 0.
Proof. apply pdist_zero; reflexivity. Qed.
Lemma pdist_pos p q : p <> q -> 0 < pdist p q.
Proof.
  intro H; destruct (pdist_nonneg p q) as [|E]; auto.
  symmetry in E; apply pdist_zero in E; contradiction.
Qed.
Lemma pdist_le_sq p q r : 0 <= r -> (pdist p q <= r <-> psq (psub p q) <= r * r).
Proof.
  intro Hr; split; intro H.
  - unfold pdist in H. pose proof (pnorm_nonneg (psub p q)).
    rewrite <- pnorm_sq; nra.
  - unfold pdist, pnorm. replace r with (sqrt (r * r)) by (apply sqrt_square; auto).
    apply sqrt_le_1_alt; auto.
Qed.
Lemma pdist_lt_sq p q r : 0 <= r -> (pdist p q < r <-> psq (psub p q) < r * r).
Proof.
  intro Hr; split; intro H.
  - unfold pdist in H. pose proof (pnorm_nonneg (psub p q)).
    rewrite <- pnorm_sq; nra.
  - unfold pdist, pnorm. replace r with (sqrt (r * r)) by (apply sqrt_square; auto).
    apply sqrt_lt_1_alt; split; auto. apply psq_nonneg.
Qed.
Lemma pdist_le_psq p q p' q' :
  pdist p q <= pdist p' q' <-> psq (psub p q) <= psq (psub p' q').
Proof.
  rewrite pdist_le_sq by apply pdist_nonneg.
  unfold pdist at 1 2; rewrite pnorm_sq; tauto.
Qed.
Lemma psum_app a b : psum (a ++ b) = padd (psum a) (psum b).
Proof.
  induction a as [|x a IH]; simpl.
  - apply pt_eq; simpl; ring.
  - rewrite IH; apply pt_eq; simpl; ring.
Qed.
Lemma rsum_app a b : rsum (a ++ b) = rsum a + rsum b.
Proof. induction a as [|x a IH]; simpl; [ring|rewrite IH; ring]. Qed.
Lemma zsum_app a b : zsum (a ++ b) = (zsum a + zsum b)%Z.
Proof. induction a as [|x a IH]; simpl; [ring|rewrite IH; ring]. Qed.
Lemma rsum_nonneg l : (forall x, In x l -> 0 <= x) -> 0 <= rsum l.
Proof.
  induction l as [|x l IH]; simpl; intro H; [lra|].
  assert (0 <= x) by auto. assert (0 <= rsum l) by auto. lra.
Qed.

(** triangle inequality (Cauchy-Schwarz) *)
Lemma pnorm_triangle p q : pnorm (padd p q) <= pnorm p + pnorm q.
Proof.
  pose proof (pnorm_nonneg p) as Hp. pose proof (pnorm_nonneg q) as Hq.
  pose proof (pnorm_nonneg (padd p q)) as Hpq.
  pose proof (pnorm_sq p) as Ep. pose proof (pnorm_sq q) as Eq.
  pose proof (pnorm_sq (padd p q)) as Epq.
  assert (CS : px p * px q + py p * py q <= pnorm p * pnorm q).
  { destruct (Rle_lt_dec (px p * px q + py p * py q) 0) as [Hn|Hn]; [nra|].
    apply Rsqr_incr_0_var; [|nra]. unfold Rsqr.
    replace (pnorm p * pnorm q * (pnorm p * pnorm q))
      with ((pnorm p * pnorm p) * (pnorm q * pnorm q)) by ring.
    rewrite Ep, Eq; unfold psq.
    assert (0 <= (px p * py q - py p * px q) * (px p * py q - py p * px q)) by apply Rle_0_sqr.
    nra. }
  apply Rsqr_incr_0_var; [|lra]. unfold Rsqr. rewrite Epq.
  unfold psq, padd in *; simpl in *. nra.
Qed.
Lemma pnorm_scale k p : pnorm (pscale k p) = Rabs k * pnorm p.
Proof.
  unfold pnorm. replace (psq (pscale k p)) with (Rsqr k * psq p)
    by (unfold psq, pscale, Rsqr; simpl; ring).
  rewrite sqrt_mult_alt by apply Rle_0_sqr. rewrite sqrt_Rsqr_abs. reflexivity.
Qed.

(** * mask_select *)
Lemma mask_select_map {A B} (f : A -> B) m l :
  mask_select m (map f l) = map f (mask_select m l).
Proof.
  revert l; induction m as [|b m IH]; intros [|x l]; simpl; auto.
  destruct b; simpl; rewrite IH; reflexivity.
Qed.
Lemma mask_select_filter {A} (f : A -> bool) l :
  mask_select (map f l) l = filter f l.
Proof. induction l as [|x l IH]; simpl; auto. destruct (f x); rewrite IH; auto. Qed.
Lemma mask_select_length {A B} m (l : list A) (l' : list B) :
  length l = length l' -> length (mask_select m l) = length (mask_select m l').
Proof.
  revert l l'; induction m as [|b m IH]; intros [|x l] [|y l'] H; simpl in *; try lia; auto.
  destruct b; simpl; f_equal; apply IH; lia.
Qed.
Lemma mask_select_combine {A B} m (l : list A) (l' : list B) :
  length l = length l' ->
  mask_select m (combine l l') = combine (mask_select m l) (mask_select m l').
Proof.
  revert l l'; induction m as [|b m IH]; intros [|x l] [|y l'] H; simpl in *; try lia; auto.
  destruct b; simpl; rewrite IH by lia; reflexivity.
Qed.
Lemma mask_select_In {A} m (l : list A) x : In x (mask_select m l) -> In x l.
Proof.
  revert l; induction m as [|b m IH]; intros [|y l]; simpl; try tauto.
  destruct b; simpl; intuition.
Qed.

(** * upd *)
Lemma upd_length {A} (l : list A) i v : length (upd l i v) = length l.
Proof. revert i; induction l as [|x l IH]; intros [|i]; simpl; auto. Qed.
Lemma upd_nth_same {A} (l : list A) i v :
  (i < length l)%nat -> nth_error (upd l i v) i = Some v.
Proof.
  revert i; induction l as [|x l IH]; intros [|i] H; simpl in *; try lia; auto.
  apply IH; lia.
Qed.
Lemma upd_nth_other {A} (l : list A) i j v :
  i <> j -> nth_error (upd l i v) j = nth_error l j.
Proof.
  revert i j; induction l as [|x l IH]; intros [|i] [|j] H; simpl; auto; try lia.
Qed.

(** * take_idx *)
Lemma take_idx_Some {A} (l : list A) idx :
  (forall i, In i idx -> (i < length l)%nat) ->
  exists r, take_idx l idx = Some r /\ length r = length idx.
Proof.
  induction idx as [|i idx IH]; simpl; intro H.
  - exists []; auto.
  - destruct IH as [r [Hr Hl]]; [auto|].
    destruct (nth_error l i) as [x|] eqn:E.
    + rewrite Hr; exists (x :: r); simpl; auto.
    + apply nth_error_None in E. specialize (H i (or_introl eq_refl)). lia.
Qed.
Lemma take_idx_nth {A} (l : list A) idx r k :
  take_idx l idx = Some r ->
  nth_error r k = match nth_error idx k with
                  | Some i => nth_error l i | None => None end.
Proof.
  revert r k; induction idx as [|i idx IH]; simpl; intros r k H.
  - injection H; intros <-. destruct k; reflexivity.
  - destruct (nth_error l i) eqn:E; [|discriminate].
    destruct (take_idx l idx) eqn:E2; [|discriminate].
    injection H; intros <-. destruct k; simpl; [auto|]. apply IH; auto.
Qed.
Lemma take_idx_length {A} (l : list A) idx r :
  take_idx l idx = Some r -> length r = length idx.
Proof.
  revert r; induction idx as [|i idx IH]; simpl; intros r H.
  - injection H; intros <-; auto.
  - destruct (nth_error l i); [|discriminate].
    destruct (take_idx l idx) eqn:E; [|discriminate].
    injection H; intros <-; simpl; f_equal; auto.
Qed.

(** * argmin *)
Lemma argmin_from_spec l : forall best i cur (f : nat -> R),
  f best = cur -> (forall k, (k < length l)%nat -> f (i + k)%nat = nth k l 0) ->
  (best < i)%nat ->
  (forall k, (k < i)%nat -> cur <= f k) ->
  (forall k, (k < best)%nat -> cur < f k) ->
  let r := argmin_from best i cur l in
  (r < i + length l)%nat /\
  (forall k, (k < i + length l)%nat -> f r <= f k) /\
  (forall k, (k < r)%nat -> f r < f k).
Proof.
  induction l as [|x l IH]; simpl; intros best i cur f Hb Hl Hbi Hmin Hfirst.
  - rewrite Nat.add_0_r, Hb. auto.
  - assert (Hx : f i = x) by (specialize (Hl 0%nat); rewrite Nat.add_0_r in Hl; apply Hl; lia).
    assert (Hl' : forall k, (k < length l)%nat -> f (S i + k)%nat = nth k l 0).
    { intros k Hk. replace (S i + k)%nat with (i + S k)%nat by lia. apply (Hl (S k)); lia. }
    replace (i + S (length l))%nat with (S i + length l)%nat by lia.
    destruct (Rltb x cur) eqn:E; rb.
    + apply IH; auto.
      * intros k Hk. destruct (Nat.eq_dec k i) as [->|]; [lra|].
        assert (cur <= f k) by (apply Hmin; lia); lra.
      * intros k Hk. assert (cur <= f k) by (apply Hmin; lia); lra.
    + apply IH; auto.
      intros k Hk. destruct (Nat.eq_dec k i) as [->|]; [lra|]. apply Hmin; lia.
Qed.

Lemma argmin_spec l r : argmin l = Some r ->
  (r < length l)%nat /\
  (forall k, (k < length l)%nat -> nth r l 0 <= nth k l 0) /\
  (forall k, (k < r)%nat -> nth r l 0 < nth k l 0).
Proof.
  destruct l as [|x l]; simpl; [discriminate|].
  intro H; injection H; intros <-.
  apply (argmin_from_spec l 0 1 x (fun k => nth k (x :: l) 0)); auto; try lia.
  intros k Hk. assert (k = 0)%nat by lia; subst; simpl; lra.
Qed.
Lemma argmin_None l : argmin l = None <-> l = [].
Proof. destruct l; simpl; split; intro; auto; discriminate. Qed.
Lemma argmin_Some l : l <> [] -> exists r, argmin l = Some r.
Proof. destruct l; simpl; [contradiction|eauto]. Qed.

(** the minimal index is unique when the minimum is strict *)
Lemma argmin_unique l r k :
  argmin l = Some r -> (k < length l)%nat ->
  (forall j, (j < length l)%nat -> j <> k -> nth k l 0 < nth j l 0) -> r = k.
Proof.
  intros H Hk Hs. apply argmin_spec in H as (Hr & Hm & _).
  destruct (Nat.eq_dec r k) as [|E]; auto.
  specialize (Hs r Hr E). specialize (Hm k Hk). lra.
Qed.

(** * misc lists *)
Lemma nth_error_nth_default {A} (l : list A) i d x :
  nth_error l i = Some x -> nth i l d = x.
Proof. intro; apply nth_error_nth; auto. Qed.
Lemma nth_error_lt {A} (l : list A) i x :
  nth_error l i = Some x -> (i < length l)%nat.
Proof. intro H; apply nth_error_Some; congruence. Qed.
Lemma nth_error_map_Some {A B} (f : A -> B) l i y :
  nth_error (map f l) i = Some y <-> exists x, nth_error l i = Some x /\ y = f x.
Proof.
  revert i; induction l as [|a l IH]; intros [|i]; simpl.
  - split; [discriminate|intros (?&?&?); discriminate].
  - split; [discriminate|intros (?&?&?); discriminate].
  - split; [intro H; injection H; intros <-; eauto|].
    intros (x & H & ->). injection H; intros ->; auto.
  - apply IH.
Qed.
Lemma nth_error_combine {A B} (l : list A) (l' : list B) i a b :
  nth_error (combine l l') i = Some (a, b) <->
  nth_error l i = Some a /\ nth_error l' i = Some b.
Proof.
  revert l' i; induction l as [|x l IH]; intros [|y l'] [|i]; simpl;
    try (split; [discriminate|intros []; discriminate]).
  - split; intro H.
    + injection H; intros -> ->; auto.
    + destruct H as [H1 H2]; congruence.
  - apply IH.
Qed.
Lemma map_fst_combine {A B} (l : list A) (l' : list B) :
  length l = length l' -> map fst (combine l l') = l.
Proof.
  revert l'; induction l as [|x l IH]; intros [|y l'] H; simpl in *; try lia; auto.
  f_equal; apply IH; lia.
Qed.
Lemma map_snd_combine {A B} (l : list A) (l' : list B) :
  length l = length l' -> map snd (combine l l') = l'.
Proof.
  revert l'; induction l as [|x l IH]; intros [|y l'] H; simpl in *; try lia; auto.
  f_equal; apply IH; lia.
Qed.
Lemma combine_map_l {A B C} (f : A -> C) (l : list A) (l' : list B) :
  combine (map f l) l' = map (fun ab => (f (fst ab), snd ab)) (combine l l').
Proof.
  revert l'; induction l as [|x l IH]; intros [|y l']; simpl; auto. f_equal; auto.
Qed.

(** * res *)
Lemma bind_Ok {A B} (r : res A) (f : A -> res B) b :
  bind r f = Ok b <-> exists a, r = Ok a /\ f a = Ok b.
Proof.
  destruct r as [a|e|]; simpl; split; try discriminate; try (intros (?&?&?); discriminate).
  - eauto.
  - intros (a' & H & H'); injection H; intros ->; auto.
Qed.

Lemma Forall2_len {A B} (P : A -> B -> Prop) l l' : Forall2 P l l' -> length l = length l'.
Proof. induction 1; simpl; auto. Qed.
