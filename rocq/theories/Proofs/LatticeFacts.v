(** The generated lattice. *)
From Coq Require Import Reals ZArith List Bool Arith Lia Lra.
From Flocq Require Import Core.
From Verif Require Import Base.Prelude Base.Rounding Base.Random Model.Constants
  Model.Geometry Model.MicroscopeUtils Model.Graphene Spec.Grids Spec.Lattice Spec.Material
  Proofs.BaseFacts Proofs.RoundingFacts Proofs.GeometryFacts Proofs.MaterialFacts.
Import ListNotations.
Open Scope R_scope.

Lemma sqrt3_pos : 0 < sqrt 3.
Proof. apply sqrt_lt_R0; lra. Qed.
Lemma sqrt3_sq : sqrt 3 * sqrt 3 = 3.
Proof. apply sqrt_sqrt; lra. Qed.
Lemma hex_ratio_pos : 0 < hex_ratio.
Proof. unfold hex_ratio. pose proof sqrt3_pos. lra. Qed.

Lemma site_dist x y x' y' :
  psq (psub (site x y) (site x' y')) = IZR ((x - x') * (x - x') + 3 * ((y - y') * (y - y'))) / 4.
Proof.
  unfold psq, site, psub; cbn [px py]. pose proof sqrt3_sq.
  rewrite plus_IZR, !mult_IZR, !minus_IZR.
  transitivity ((IZR x - IZR x') * (IZR x - IZR x') / 4 + (sqrt 3 * sqrt 3) * ((IZR y - IZR y') * (IZR y - IZR y')) / 4).
  - field.
  - rewrite H. field.
Qed.

Lemma site_inj x y x' y' : site x y = site x' y' -> x = x' /\ y = y'.
Proof.
  unfold site. intros E. injection E as E1 E2. pose proof sqrt3_pos.
  split; apply eq_IZR; nra.
Qed.

Lemma even_parity n : Z.even n = true -> exists k, n = (2 * k)%Z.
Proof. intros H. apply Z.even_spec in H. destruct H as [k ->]. exists k; lia. Qed.

Lemma site_separated x y x' y' : honeycomb x y -> honeycomb x' y' -> (x, y) <> (x', y') ->
  (4 <= (x - x') * (x - x') + 3 * ((y - y') * (y - y')))%Z.
Proof.
  intros [P _] [P' _] N.
  assert (exists k, (x - x') + (y - y') = 2 * k)%Z as [k Hk].
  { apply even_parity in P. apply even_parity in P'. destruct P as [a Ha], P' as [b Hb]. exists (a - b)%Z. lia. }
  set (dx := (x - x')%Z) in *. set (dy := (y - y')%Z) in *.
  assert (dx <> 0 \/ dy <> 0)%Z.
  { destruct (Z.eq_dec dx 0), (Z.eq_dec dy 0); auto. exfalso. apply N. unfold dx, dy in *. f_equal; lia. }
  destruct (Z.eq_dec dy 0) as [E|E].
  - assert (dx = 2 * k)%Z by lia. assert (k <> 0)%Z by lia. nia.
  - destruct (Z.eq_dec (Z.abs dy) 1) as [E1|E1].
    + assert (dx <> 0)%Z by lia. nia.
    + assert (2 <= Z.abs dy)%Z by lia. nia.
Qed.

(** rows *)
Lemma hex_rows_spec n r : (r < hex_rows n)%nat <-> (INR r + 1) * (sqrt 3 / 2) <= INR n.
Proof.
  unfold hex_rows, trunc. pose proof hex_ratio_pos as P.
  assert (0 <= INR n / hex_ratio) as Q.
  { apply Rmult_le_pos; [apply pos_INR|left; apply Rinv_0_lt_compat; auto]. }
  rewrite Ztrunc_floor by auto.
  assert ((INR r + 1) * (sqrt 3 / 2) <= INR n <-> IZR (Z.of_nat r + 1) <= INR n / hex_ratio) as ->.
  { rewrite plus_IZR, <- INR_IZR_INZ. fold hex_ratio. split; intros H.
    - apply Rmult_le_reg_r with hex_ratio; auto. unfold Rdiv. rewrite Rmult_assoc, Rinv_l by lra. lra.
    - apply Rmult_le_compat_r with (r := hex_ratio) in H; [|lra]. unfold Rdiv in H.
      rewrite Rmult_assoc, Rinv_l in H by lra. lra. }
  assert (0 <= Zfloor (INR n / hex_ratio))%Z by (apply Zfloor_lub; simpl; auto).
  split; intros H0.
  - apply Rle_trans with (IZR (Zfloor (INR n / hex_ratio))); [apply IZR_le; lia|apply Zfloor_lb].
  - apply Zfloor_lub in H0. lia.
Qed.

Definition half_col (r c : nat) : Z := (2 * Z.of_nat c + Z.of_nat (r mod 2))%Z.

Lemma even_mod2 r : Nat.even r = (r mod 2 =? 0)%nat.
Proof.
  destruct (Nat.even r) eqn:E; symmetry.
  - apply Nat.eqb_eq. apply Nat.even_spec in E. destruct E as [k ->]. rewrite Nat.mul_comm. apply Nat.mod_mul; lia.
  - apply Nat.eqb_neq. intros H. apply Nat.mod_divides in H; [|lia]. destruct H as [k ->].
    rewrite Nat.even_mul in E. simpl in E. discriminate.
Qed.

Lemma hex_point_site r c : hex_point r c = site (half_col r c) (Z.of_nat r).
Proof.
  unfold hex_point, site, half_col, hex_ratio. rewrite even_mod2.
  rewrite plus_IZR, mult_IZR, <- !INR_IZR_INZ.
  pose proof (Nat.mod_upper_bound r 2 ltac:(lia)) as B.
  destruct (r mod 2) as [|[|]]; [| |lia]; apply pt_eq; simpl; lra.
Qed.

Lemma hex_keep_spec r c : hex_keep r c = true <-> (half_col r c mod 3 <> 0)%Z.
Proof.
  unfold hex_keep, half_col. rewrite even_mod2.
  pose proof (Nat.mod_upper_bound r 2 ltac:(lia)) as B.
  destruct (r mod 2) as [|[|]] eqn:Er; [| |lia]; cbn [Nat.eqb]; cbv iota;
    rewrite negb_true_iff, Nat.eqb_neq; clear Er B;
    pose proof (Nat.div_mod_eq c 3) as C; pose proof (Nat.mod_upper_bound c 3 ltac:(lia)) as B3;
    match goal with |- _ <-> ((?a mod 3)%Z <> _) =>
      pose proof (Z.div_mod a 3 ltac:(lia)) as D; pose proof (Z.mod_pos_bound a 3 ltac:(lia)) as D3 end;
    set (q := (c / 3)%nat) in *; set (m := (c mod 3)%nat) in *;
    match goal with |- _ <-> ((?a mod 3)%Z <> _) => set (Q := (a / 3)%Z) in *; set (M := (a mod 3)%Z) in * end;
    clearbody q m Q M;  lia.
Qed.

Lemma half_col_parity r c : Z.even (half_col r c + Z.of_nat r) = true.
Proof.
  apply Z.even_spec. unfold half_col. pose proof (Nat.div_mod_eq r 2) as E.
  exists (Z.of_nat c + Z.of_nat (r mod 2) + Z.of_nat (r / 2))%Z. lia.
Qed.

(** membership *)
Lemma sheet_In n p : In p (generate_hexagonal_grid n) <->
  exists x y, p = site x y /\ on_sheet n x y.
Proof.
  unfold generate_hexagonal_grid, hex_indices. rewrite in_map_iff. split.
  - intros ([r c] & <- & H). apply filter_In in H. destruct H as [H K]. simpl in *.
    apply in_prod_iff in H. destruct H as [Hr Hc]. apply in_seq in Hr. apply in_seq in Hc.
    exists (half_col r c), (Z.of_nat r). split; [apply hex_point_site|].
    apply hex_keep_spec in K. split; [split; [apply half_col_parity|auto]|].
    pose proof (Nat.mod_upper_bound r 2 ltac:(lia)). unfold half_col.
    split; [lia|]. split; [lia|]. rewrite <- INR_IZR_INZ. apply hex_rows_spec. lia.
  - intros (x & y & -> & (P & M) & X & Y & H).
    set (r := Z.to_nat y). assert (Hy : y = Z.of_nat r) by (unfold r; lia). clearbody r. subst y.
    apply even_parity in P. destruct P as [k Hk].
    pose proof (Nat.div_mod_eq r 2) as E. pose proof (Nat.mod_upper_bound r 2 ltac:(lia)) as B.
    set (c := Z.to_nat ((x - Z.of_nat (r mod 2)) / 2)).
    assert (Hc : half_col r c = x /\ (c < n)%nat).
    { assert (exists j, x - Z.of_nat (r mod 2) = 2 * j)%Z as [j Hj].
      { exists (k - Z.of_nat (r / 2) - Z.of_nat (r mod 2))%Z. lia. }
      unfold c, half_col. rewrite Hj; replace (2 * j / 2)%Z with j by (rewrite (Z.mul_comm 2 j), Z.div_mul; lia).
      assert (0 <= j)%Z by lia. lia. }
    destruct Hc as [Hc Lc]. exists (r, c). split; [simpl; rewrite hex_point_site, Hc; auto|].
    apply filter_In. simpl. split; [|apply hex_keep_spec; rewrite Hc; auto].
    apply in_prod; apply in_seq; [|lia].
    rewrite <- INR_IZR_INZ in H. apply hex_rows_spec in H. lia.
Qed.

Lemma NoDup_map_inj_in {A B} (f : A -> B) l :
  (forall x y, In x l -> In y l -> f x = f y -> x = y) -> NoDup l -> NoDup (map f l).
Proof.
  induction l as [|a l IH]; intros H N; simpl; [constructor|].
  inversion N; subst. constructor.
  - intros Hin. apply in_map_iff in Hin. destruct Hin as (x & E & Hx).
    assert (x = a) by (apply H; simpl; auto). subst. contradiction.
  - apply IH; auto. intros; apply H; simpl; auto.
Qed.

Lemma NoDup_list_prod {A B} (l : list A) (l' : list B) : NoDup l -> NoDup l' -> NoDup (list_prod l l').
Proof.
  induction l as [|a l IH]; intros N N'; simpl; [constructor|].
  inversion N; subst. rewrite NoDup_app_iff || idtac.
  assert (D : NoDup (map (fun y => (a, y)) l')).
  { apply NoDup_map_inj_in; auto. intros x y _ _ E. inversion E; auto. }
  specialize (IH H2 N').
  assert (forall x, In x (map (fun y => (a, y)) l') -> ~ In x (list_prod l l')).
  { intros x Hx Hx'. apply in_map_iff in Hx. destruct Hx as (y & <- & _).
    apply in_prod_iff in Hx'. destruct Hx'. contradiction. }
  revert D H. generalize (map (fun y => (a, y)) l'). intros m D H.
  induction m as [|x m IHm]; simpl; auto. inversion D; subst. constructor.
  - rewrite in_app_iff. intros [?|?]; [contradiction|]. apply (H x); simpl; auto.
  - apply IHm; auto. intros; apply H; simpl; auto.
Qed.

Lemma sheet_NoDup n : NoDup (generate_hexagonal_grid n).
Proof.
  unfold generate_hexagonal_grid. apply NoDup_map_inj_in.
  - intros [r c] [r' c'] _ _ E. simpl in E. rewrite !hex_point_site in E.
    apply site_inj in E. destruct E as [E1 E2]. assert (r = r') by lia. subst r'.
    unfold half_col in E1. f_equal. lia.
  - unfold hex_indices. apply NoDup_filter. apply NoDup_list_prod; apply seq_NoDup.
Qed.

Lemma dist_ge_1 x y x' y' : (4 <= (x - x') * (x - x') + 3 * ((y - y') * (y - y')))%Z ->
  1 <= pdist (site x y) (site x' y').
Proof.
  intros H. destruct (Rle_dec 1 (pdist (site x y) (site x' y'))) as [|N]; auto. exfalso.
  apply Rnot_le_lt in N. apply pdist_lt_sq in N; [|lra]. rewrite site_dist in N.
  apply IZR_le in H. lra.
Qed.

Lemma dist_gt_1 x y x' y' : (4 < (x - x') * (x - x') + 3 * ((y - y') * (y - y')))%Z ->
  1 < pdist (site x y) (site x' y').
Proof.
  intros H. destruct (Rlt_dec 1 (pdist (site x y) (site x' y'))) as [|N]; auto. exfalso.
  apply Rnot_lt_le in N. apply pdist_le_sq in N; [|lra]. rewrite site_dist in N.
  apply IZR_lt in H. lra.
Qed.

Lemma dist_eq_1 x y x' y' : ((x - x') * (x - x') + 3 * ((y - y') * (y - y')) = 4)%Z ->
  pdist (site x y) (site x' y') = 1.
Proof.
  intros H. unfold pdist, pnorm. rewrite site_dist, H.
  replace (4 / 4) with 1 by field. apply sqrt_1.
Qed.

Lemma sheet_separated n p q : In p (generate_hexagonal_grid n) -> In q (generate_hexagonal_grid n) ->
  p <> q -> 1 <= pdist p q.
Proof.
  intros Hp Hq N. apply sheet_In in Hp. apply sheet_In in Hq.
  destruct Hp as (x & y & -> & Hp), Hq as (x' & y' & -> & Hq).
  apply dist_ge_1. apply site_separated; [apply Hp|apply Hq|]. intros E. inversion E; subst. auto.
Qed.

(** the three neighbours of a site *)
Lemma neighbour_class x y x' y' : honeycomb x y -> honeycomb x' y' ->
  ((x - x') * (x - x') + 3 * ((y - y') * (y - y')) = 4)%Z ->
  ((x mod 3 = 2)%Z /\ ((x' = x + 2 /\ y' = y) \/ (x' = x - 1 /\ (y' = y + 1 \/ y' = y - 1)))%Z) \/
  ((x mod 3 = 1)%Z /\ ((x' = x - 2 /\ y' = y) \/ (x' = x + 1 /\ (y' = y + 1 \/ y' = y - 1)))%Z).
Proof.
  intros [P M] [P' M'] H.
  assert (Hd : ((y' = y /\ (x' = x + 2 \/ x' = x - 2)) \/ ((y' = y + 1 \/ y' = y - 1) /\ (x' = x + 1 \/ x' = x - 1)))%Z).
  { pose proof (Z.square_nonneg (x - x')) as Sx. pose proof (Z.square_nonneg (y - y')) as Sy.
    set (dx := (x - x')%Z) in *. set (dy := (y - y')%Z) in *.
    assert (-1 <= dy <= 1)%Z by nia.
    assert (dy = 0 \/ dy = 1 \/ dy = -1)%Z as [E|[E|E]] by lia; rewrite E in H;
      [left|right|right].
    - split; [unfold dy in *; lia|]. assert (-2 <= dx <= 2)%Z by nia.
      assert (dx = -2 \/ dx = -1 \/ dx = 0 \/ dx = 1 \/ dx = 2)%Z as [F|[F|[F|[F|F]]]] by lia; rewrite F in H; unfold dx in *; lia.
    - split; [unfold dy in *; lia|]. assert (-1 <= dx <= 1)%Z by nia.
      assert (dx = -1 \/ dx = 0 \/ dx = 1)%Z as [F|[F|F]] by lia; rewrite F in H; unfold dx in *; lia.
    - split; [unfold dy in *; lia|]. assert (-1 <= dx <= 1)%Z by nia.
      assert (dx = -1 \/ dx = 0 \/ dx = 1)%Z as [F|[F|F]] by lia; rewrite F in H; unfold dx in *; lia. }
  pose proof (Z.mod_pos_bound x 3 ltac:(lia)). pose proof (Z.div_mod x 3 ltac:(lia)).
  pose proof (Z.mod_pos_bound x' 3 ltac:(lia)). pose proof (Z.div_mod x' 3 ltac:(lia)).
  assert (x mod 3 = 1 \/ x mod 3 = 2)%Z as [E|E] by lia.
  - right. split; auto. destruct Hd as [[-> [D|D]]|[D [D1|D1]]]; try (left; lia); right; lia.
  - left. split; auto. destruct Hd as [[-> [D|D]]|[D [D1|D1]]]; try (left; lia); right; lia.
Qed.

Lemma even_shift n m : Z.even n = true -> Z.even (m - n) = true -> Z.even m = true.
Proof. intros H K. replace m with ((m - n) + n)%Z by lia. rewrite Z.even_add, H, K. reflexivity. Qed.

Lemma sheet_three_neighbours n p : In p (generate_hexagonal_grid n) ->
  1 <= px p -> px p + 3 / 2 <= INR n -> sqrt 3 / 2 <= py p -> py p + sqrt 3 <= INR n ->
  three_at (generate_hexagonal_grid n) 1 p.
Proof.
  intros Hp X1 X2 Y1 Y2. apply sheet_In in Hp. destruct Hp as (x & y & -> & Hs).
  pose proof sqrt3_pos as S3. destruct Hs as ((P & M) & Hx & Hy & Hyn).
  unfold site in X1, X2, Y1, Y2; simpl in *.
  assert (2 <= x)%Z by (apply le_IZR; lra).
  assert (x + 3 <= 2 * Z.of_nat n)%Z.
  { apply le_IZR. rewrite plus_IZR, mult_IZR, <- INR_IZR_INZ. lra. }
  assert (1 <= y)%Z by (apply le_IZR; nra).
  assert (Yu : (IZR (y + 1) + 1) * (sqrt 3 / 2) <= INR n) by (rewrite plus_IZR; nra).
  assert (Yl : (IZR (y - 1) + 1) * (sqrt 3 / 2) <= INR n) by (rewrite minus_IZR; nra).
  assert (Hc : honeycomb x y) by (split; auto).
  pose proof (Z.mod_pos_bound x 3 ltac:(lia)). pose proof (Z.div_mod x 3 ltac:(lia)).
  assert (Hon : forall x' y', Z.even (x' + y' - (x + y)) = true -> (x' mod 3 <> 0)%Z ->
     (x - 2 <= x' <= x + 2)%Z -> (y - 1 <= y' <= y + 1)%Z ->
     on_sheet n x' y').
  { intros x' y' E M' Bx By. split; [|split; [|split]].
    - split; auto. apply even_shift with (x + y)%Z; auto.
    - lia.
    - lia.
    - apply Rle_trans with ((IZR (y + 1) + 1) * (sqrt 3 / 2)); auto.
      assert (IZR y' <= IZR (y + 1)) by (apply IZR_le; lia). nra. }
  assert (forall x1 y1 x2 y2 x3 y3,
    on_sheet n x1 y1 -> on_sheet n x2 y2 -> on_sheet n x3 y3 ->
    (x1, y1) <> (x2, y2) -> (x1, y1) <> (x3, y3) -> (x2, y2) <> (x3, y3) ->
    ((x - x1) * (x - x1) + 3 * ((y - y1) * (y - y1)) = 4)%Z ->
    ((x - x2) * (x - x2) + 3 * ((y - y2) * (y - y2)) = 4)%Z ->
    ((x - x3) * (x - x3) + 3 * ((y - y3) * (y - y3)) = 4)%Z ->
    (forall x' y', honeycomb x' y' -> ((x - x') * (x - x') + 3 * ((y - y') * (y - y')) = 4)%Z ->
       (x', y') = (x1, y1) \/ (x', y') = (x2, y2) \/ (x', y') = (x3, y3)) ->
    three_at (generate_hexagonal_grid n) 1 (site x y)) as K.
  { intros x1 y1 x2 y2 x3 y3 O1 O2 O3 N12 N13 N23 D1 D2 D3 A.
    exists (site x1 y1), (site x2 y2), (site x3 y3).
    assert (inj : forall a b c d, (a, b) <> (c, d) -> site a b <> site c d).
    { intros a b c d N E. apply site_inj in E. destruct E; subst; auto. }
    split; [apply sheet_In; eauto|]. split; [apply sheet_In; eauto|]. split; [apply sheet_In; eauto|].
    split; [auto|]. split; [auto|]. split; [auto|].
    split; [apply dist_eq_1; auto|]. split; [apply dist_eq_1; auto|]. split; [apply dist_eq_1; auto|].
    intros q Hq. apply sheet_In in Hq. destruct Hq as (x' & y' & -> & Hq).
    destruct (Z.eq_dec x x') as [Ex|Ex]; [destruct (Z.eq_dec y y') as [Ey|Ey]|].
    - left; subst; auto.
    - destruct (Z.eq_dec ((x - x') * (x - x') + 3 * ((y - y') * (y - y'))) 4) as [E4|E4].
      + destruct (A x' y' (proj1 Hq) E4) as [E|[E|E]]; inversion E; subst; auto.
      + do 4 right. apply dist_gt_1. assert ((x, y) <> (x', y')) as N by congruence.
        pose proof (site_separated x y x' y' Hc (proj1 Hq) N). lia.
    - destruct (Z.eq_dec ((x - x') * (x - x') + 3 * ((y - y') * (y - y'))) 4) as [E4|E4].
      + destruct (A x' y' (proj1 Hq) E4) as [E|[E|E]]; inversion E; subst; auto.
      + do 4 right. apply dist_gt_1. assert ((x, y) <> (x', y')) as N by congruence.
        pose proof (site_separated x y x' y' Hc (proj1 Hq) N). lia. }
  assert (x mod 3 = 1 \/ x mod 3 = 2)%Z as [E|E] by lia.
  - apply (K (x - 2) y (x + 1) (y + 1) (x + 1) (y - 1))%Z; try (apply Hon; try lia);
      try (intros Q; inversion Q; lia); try lia.
    + replace (x - 2 + y - (x + y))%Z with (-2)%Z by lia. reflexivity.
    + intros Q. pose proof (Z.div_mod (x - 2) 3 ltac:(lia)). lia.
    + replace (x + 1 + (y + 1) - (x + y))%Z with 2%Z by lia. reflexivity.
    + intros Q. pose proof (Z.div_mod (x + 1) 3 ltac:(lia)). lia.
    + replace (x + 1 + (y - 1) - (x + y))%Z with 0%Z by lia. reflexivity.
    + intros Q. pose proof (Z.div_mod (x + 1) 3 ltac:(lia)). lia.
    + intros x' y' H' D. destruct (neighbour_class x y x' y' Hc H' D) as [[? _]|[_ C]]; [lia|].
      destruct C as [[-> ->]|[-> [->| ->]]]; auto.
  - apply (K (x + 2) y (x - 1) (y + 1) (x - 1) (y - 1))%Z; try (apply Hon; try lia);
      try (intros Q; inversion Q; lia); try lia.
    + replace (x + 2 + y - (x + y))%Z with 2%Z by lia. reflexivity.
    + intros Q. pose proof (Z.div_mod (x + 2) 3 ltac:(lia)). lia.
    + replace (x - 1 + (y + 1) - (x + y))%Z with 0%Z by lia. reflexivity.
    + intros Q. pose proof (Z.div_mod (x - 1) 3 ltac:(lia)). lia.
    + replace (x - 1 + (y - 1) - (x + y))%Z with (-2)%Z by lia. reflexivity.
    + intros Q. pose proof (Z.div_mod (x - 1) 3 ltac:(lia)). lia.
    + intros x' y' H' D. destruct (neighbour_class x y x' y' Hc H' D) as [[_ C]|[? _]]; [|lia].
      destruct C as [[-> ->]|[-> [->| ->]]]; auto.
Qed.
