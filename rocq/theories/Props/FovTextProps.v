(** Property C129: a field of view as text. *)
From Coq Require Import Reals ZArith NArith List Bool Lia Lra String Ascii.
From Flocq Require Import Core.
From Verif Require Import Base.Prelude Base.Rounding Model.MicroscopeUtils Model.FovText Spec.FovText
  Proofs.BaseFacts Proofs.RoundingFacts.
Local Open Scope string_scope.

Lemma sapp_assoc (a b c : string) : (a ++ b) ++ c = a ++ b ++ c.
Proof. induction a as [|x a IH]; cbn; [reflexivity|]. rewrite IH. reflexivity. Qed.
Lemma sapp_nil (a : string) : a ++ "" = a.
Proof. induction a as [|x a IH]; cbn; congruence. Qed.

(** ** numerals *)
Lemma digits_numeral : forall fuel n, (n < 2 ^ N.of_nat fuel)%N -> numeral n (digits (S fuel) n).
Proof.
  induction fuel as [|fuel IH]; intros n L.
  - assert (n = 0%N) as -> by (change (2 ^ N.of_nat 0)%N with 1%N in L; lia). apply numeral_digit. lia.
  - cbn [digits]. destruct (N.ltb_spec n 10) as [K|K]; [apply numeral_digit; exact K|].
    pose proof (N.div_mod n 10 ltac:(lia)) as D. pose proof (N.mod_lt n 10 ltac:(lia)) as M.
    rewrite D at 1. apply numeral_more; [|apply (IH (n / 10)%N)|exact M].
    + apply N.div_str_pos. lia.
    + rewrite Nat2N.inj_succ, N.pow_succ_r' in L. apply N.div_lt_upper_bound; lia.
Qed.
Lemma decimal_numeral n : numeral n (decimal_N n).
Proof.
  apply digits_numeral. destruct n as [|p]; [reflexivity|]. rewrite <- (N2Nat.id (N.pos p)) at 1. 
  change (N.size_nat (N.pos p)) with (Pos.size_nat p). rewrite N2Nat.id.
  induction p as [p IH|p IH|]; cbn [Pos.size_nat]; try rewrite Nat2N.inj_succ, N.pow_succ_r'; try lia.
Qed.

Fixpoint value_from (v : N) (s : string) : N :=
  match s with EmptyString => v | String c s => value_from (10 * v + (N_of_ascii c - 48)) s end.
Lemma value_app s : forall v r, value_from v (s ++ r) = value_from (value_from v s) r.
Proof. induction s as [|c s IH]; intros v r; cbn; auto. Qed.
Lemma ascii_digit d : (d < 10)%N -> N_of_ascii (ascii_of_N (48 + d)) = (48 + d)%N.
Proof. intros L. apply N_ascii_embedding. lia. Qed.
Lemma value_digit v d : (d < 10)%N -> value_from v (digit d) = (10 * v + d)%N.
Proof. intros L. unfold digit. cbn [value_from]. rewrite ascii_digit by exact L. lia. Qed.
Lemma numeral_value n s : numeral n s -> value_from 0 s = n.
Proof.
  induction 1 as [d L|n s d P H IH L]; [rewrite value_digit by exact L; lia|].
  rewrite value_app, IH, value_digit by exact L. lia.
Qed.

(** characters of numbers *)
Definition is_digit (c : ascii) : Prop := (48 <= N_of_ascii c <= 57)%N.
Fixpoint all_chars (P : ascii -> Prop) (s : string) : Prop :=
  match s with EmptyString => True | String c s => P c /\ all_chars P s end.
Lemma all_chars_app P a b : all_chars P (a ++ b) <-> all_chars P a /\ all_chars P b.
Proof. induction a as [|c a IH]; cbn; tauto. Qed.
Lemma all_chars_impl (P Q : ascii -> Prop) s : (forall c, P c -> Q c) -> all_chars P s -> all_chars Q s.
Proof. intros H. induction s; cbn; intuition. Qed.
Lemma digit_is d : (d < 10)%N -> all_chars is_digit (digit d).
Proof. intros L. unfold digit. cbn [all_chars]. unfold is_digit. rewrite ascii_digit by exact L. lia. Qed.
Lemma numeral_digits n s : numeral n s -> all_chars is_digit s.
Proof. induction 1 as [d L|n s d P H IH L]; [|apply all_chars_app; split; [exact IH|]]; apply digit_is; exact L. Qed.
Lemma numeral_head n s : numeral n s -> exists c r, s = String c r /\ is_digit c.
Proof.
  intros H. pose proof (numeral_digits n s H) as D. destruct s as [|c r]; [|exists c, r; cbn in D; tauto].
  inversion H as [|? s' ? ? ? ? X]. destruct s'; discriminate.
Qed.

(** two words of these characters, each followed by another character *)
Lemma split_words (P : ascii -> Prop) a : forall b c d x y, all_chars P a -> all_chars P b -> ~ P x -> ~ P y ->
  a ++ String x c = b ++ String y d -> a = b /\ String x c = String y d.
Proof.
  induction a as [|u a IH]; intros [|v b] c d x y Ha Hb Nx Ny E; cbn in *.
  - auto.
  - injection E as -> _. tauto.
  - injection E as -> _. tauto.
  - injection E as -> E. destruct (IH b c d x y) as [-> E']; tauto || auto.
Qed.

Open Scope R_scope.
Lemma nearest_unique x h h' : nearest_hundredth x h -> nearest_hundredth x h' -> h = h'.
Proof.
  intros [A B] [A' B']. destruct (Z.eq_dec h h') as [|N]; [auto|exfalso].
  assert (D : (h <= h' - 1 \/ h' <= h - 1)%Z) by lia.
  assert (E : (h' = h + 1 \/ h = h' + 1)%Z /\ Rabs (x * 100 - IZR h) = 1 / 2 /\ Rabs (x * 100 - IZR h') = 1 / 2).
  { apply Rabs_le_inv in A, A'. assert (K : (h' = h + 1 \/ h = h' + 1)%Z).
    { destruct D as [D|D]; [left|right]; apply Z.le_antisymm; try lia; apply le_IZR; rewrite plus_IZR;
        assert (IZR 1 = 1) by reflexivity; [assert (IZR h' < IZR (h + 2)) by (rewrite plus_IZR; lra)|assert (IZR h < IZR (h' + 2)) by (rewrite plus_IZR; lra)];
        apply lt_IZR in H0; rewrite <- plus_IZR; apply IZR_le; lia. }
    split; [exact K|]. destruct K as [-> | ->]; rewrite plus_IZR in *; split.
    - rewrite Rabs_pos_eq by lra. lra.
    - rewrite Rabs_left1 by lra. lra.
    - rewrite Rabs_left1 by lra. lra.
    - rewrite Rabs_pos_eq by lra. lra. }
  destruct E as (K & E1 & E2). specialize (B E1). specialize (B' E2).
  destruct K as [-> | ->]; rewrite Z.even_add in *; [rewrite B in B'|rewrite B' in B]; discriminate.
Qed.
Lemma nearest_rhe x : nearest_hundredth x (round_half_even (x * 100)).
Proof.
  unfold nearest_hundredth, round_half_even, ZnearestE, Znearest. set (y := x * 100). pose proof (Zfloor_lb y) as L. pose proof (Zfloor_ub y) as U.
  destruct (Rcompare_spec (y - IZR (Zfloor y)) (/ 2)) as [C|C|C].
  - rewrite Rabs_pos_eq by lra. split; [lra|]. intros; lra.
  - assert (N : IZR (Zfloor y) <> y) by lra. destruct (Z.even (Zfloor y)) eqn:E; cbn [negb].
    + rewrite Rabs_pos_eq by lra. split; [lra|]. auto.
    + rewrite (Zceil_floor_neq _ N), plus_IZR, Rabs_left1 by lra. split; [lra|]. intros _. rewrite Z.even_add, E. reflexivity.
  - destruct (Req_dec (IZR (Zfloor y)) y) as [E|N]; [lra|].
    rewrite (Zceil_floor_neq _ N), plus_IZR, Rabs_left1 by lra. split; [lra|]. intros; lra.
Qed.

(** ** two decimals *)
Lemma fixed2_written x : written x (fixed2 x).
Proof.
  set (h := round_half_even (x * 100)). set (n := Z.to_N (Z.abs h)).
  exists h, (n / 100)%N, ((n / 10) mod 10)%N, (n mod 10)%N. split; [apply nearest_rhe|].
  pose proof (N.mod_lt n 10 ltac:(lia)) as M0. pose proof (N.mod_lt (n / 10) 10 ltac:(lia)) as M1.
  split; [|split; [exact M1|split; [exact M0|]]].
  - pose proof (N.div_mod n 10 ltac:(lia)) as D0. pose proof (N.div_mod (n / 10) 10 ltac:(lia)) as D1.
    rewrite N.div_div in D1 by lia. change (10 * 10)%N with 100%N in D1.
    assert (Hn : Z.of_N n = Z.abs h) by (unfold n; rewrite Z2N.id; lia). lia.
  - exists (decimal_N (n / 100)). split; [apply decimal_numeral|].
    assert (Dg : forall d, (d < 10)%N -> decimal_N d = digit d).
    { intros d L. unfold decimal_N. cbn [digits]. rewrite (proj2 (N.ltb_lt _ _) L). reflexivity. }
    unfold fixed2. fold h. fold n. rewrite (Dg _ M1), (Dg _ M0).
    destruct (Rltb x 0) eqn:E; [apply Rltb_true in E; left; split; [exact E|reflexivity]|apply Rltb_false in E; right; split; [lra|reflexivity]].
Qed.

Definition number_char (c : ascii) : Prop := is_digit c \/ c = "-"%char \/ c = "."%char.
Lemma written_chars x s : written x s -> all_chars number_char s.
Proof.
  intros (h & w & t & o & _ & _ & T & O & s' & N & H).
  assert (K : all_chars number_char (s' ++ "." ++ digit t ++ digit o)).
  { rewrite !all_chars_app. split; [|split; [|split]].
    - eapply all_chars_impl; [|eapply numeral_digits; eauto]. intros c; left; auto.
    - cbn. unfold number_char. auto.
    - eapply all_chars_impl; [|apply digit_is; exact T]. intros c; left; auto.
    - eapply all_chars_impl; [|apply digit_is; exact O]. intros c; left; auto. }
  destruct H as [[_ ->]|[_ ->]]; [cbn|]; auto. split; [unfold number_char; auto|exact K].
Qed.

Lemma digits_differ : ~ is_digit "-"%char /\ ~ is_digit "."%char.
Proof. unfold is_digit. split; vm_compute; intros [A B]; try (apply A; reflexivity); try (apply B; reflexivity). Qed.
Lemma not_number : ~ number_char ","%char /\ ~ number_char ")"%char.
Proof.
  unfold number_char, is_digit. split; (intros [[A B]|[A|A]]; [|discriminate|discriminate]); vm_compute in A, B; try (apply A; reflexivity); try (apply B; reflexivity).
Qed.

Lemma String_inj a b r q : String a r = String b q -> a = b /\ r = q.
Proof. intros H. injection H. auto. Qed.
Lemma unsigned_inj w t o w' t' o' a a' : numeral a w -> numeral a' w' -> (t < 10)%N -> (o < 10)%N -> (t' < 10)%N -> (o' < 10)%N ->
  (w ++ "." ++ digit t ++ digit o)%string = (w' ++ "." ++ digit t' ++ digit o')%string -> a = a' /\ t = t' /\ o = o'.
Proof.
  intros N N' T O T' O' E. destruct digits_differ as [_ Dot].
  destruct (split_words is_digit w w' _ _ "."%char "."%char (numeral_digits _ _ N) (numeral_digits _ _ N') Dot Dot E) as [-> E'].
  split; [rewrite <- (numeral_value _ _ N), <- (numeral_value _ _ N'); reflexivity|].
  apply String_inj in E' as [_ E']. unfold digit in E'. cbn [append] in E'.
  apply String_inj in E' as [E1 E']. apply String_inj in E' as [E2 _]. apply (f_equal N_of_ascii) in E1, E2. rewrite !ascii_digit in * by assumption. lia.
Qed.

(** the texts of two numbers agree if and only if their signs and their nearest
    hundredths do *)
Lemma written_iff x y s : written x s -> (written y s <-> ((x < 0 <-> y < 0) /\ exists h, nearest_hundredth x h /\ nearest_hundredth y h)).
Proof.
  intros (h & w & t & o & Nr & Sum & T & O & s1 & N & H). split.
  - intros (h' & w' & t' & o' & Nr' & Sum' & T' & O' & s2 & N' & H').
    assert (Hd : forall r, s1 <> String "-"%char r /\ s2 <> String "-"%char r).
    { destruct digits_differ as [Minus _]. intros r. destruct (numeral_head _ _ N) as (c & q & E & D), (numeral_head _ _ N') as (c' & q' & E' & D').
      split; intros X; [rewrite E in X|rewrite E' in X]; injection X as X _; subst; contradiction. }
    assert (Hn : forall s3 r r', (forall q, s3 <> String "-"%char q) -> s3 <> ""%string -> ("-" ++ r)%string <> (s3 ++ r')%string).
    { intros [|c q] r r' A B X; [contradiction|]. cbn in X. injection X as <- _. eapply A. reflexivity. }
    assert (E1 : s1 <> ""%string /\ s2 <> ""%string).
    { destruct (numeral_head _ _ N) as (c & q & -> & _), (numeral_head _ _ N') as (c' & q' & -> & _). split; discriminate. }
    destruct H as [[X E]|[X E]], H' as [[X' E']|[X' E']]; subst s.
    + injection E' as E'. destruct (unsigned_inj _ _ _ _ _ _ _ _ N N' T O T' O' E') as (-> & -> & ->). split; [lra|].
      exists h. split; [exact Nr|]. assert (Z.abs h = Z.abs h') by lia.
      assert ((h <= 0)%Z /\ (h' <= 0)%Z).
      { destruct Nr as [A _], Nr' as [A' _]. apply Rabs_le_inv in A, A'. split; apply Z.lt_succ_r, lt_IZR; cbn; lra. }
      replace h with h' by lia. exact Nr'.
    + exfalso. eapply (Hn s2); [apply Hd|apply E1|exact E'].
    + exfalso. eapply (Hn s1); [apply Hd|apply E1|symmetry; exact E'].
    + destruct (unsigned_inj _ _ _ _ _ _ _ _ N N' T O T' O' E') as (-> & -> & ->). split; [lra|].
      exists h. split; [exact Nr|]. assert (Z.abs h = Z.abs h') by lia.
      assert ((0 <= h)%Z /\ (0 <= h')%Z).
      { destruct Nr as [A _], Nr' as [A' _]. apply Rabs_le_inv in A, A'. split; apply Z.lt_succ_r, lt_IZR; rewrite succ_IZR; lra. }
      replace h with h' by lia. exact Nr'.
  - intros [Sg (h2 & Nx & Ny)]. rewrite (nearest_unique _ _ _ Nr Nx) in *. exists h2, w, t, o. split; [exact Ny|].
    split; [exact Sum|]. split; [exact T|]. split; [exact O|]. exists s1. split; [exact N|].
    destruct H as [[X E]|[X E]]; [left|right]; split; auto; [tauto|]. destruct (Rlt_dec y 0) as [Y|Y]; [apply Sg in Y; lra|lra].
Qed.

Lemma numeral_fun n s : numeral n s -> forall m s2, numeral m s2 -> n = m -> s = s2.
Proof.
  induction 1 as [d L|n s d P N IH L]; intros m s2 N' E; destruct N' as [d' L'|n' s' d' P' N2 L'].
  - congruence.
  - lia.
  - lia.
  - assert (E1 : n = n') by lia. assert (E2 : d = d') by lia. rewrite E2, (IH n' s' N2 E1). reflexivity.
Qed.
Lemma written_fixed2 x s : written x s <-> s = fixed2 x.
Proof.
  split; [|intros ->; apply fixed2_written]. intros H.
  pose proof (fixed2_written x) as F. destruct H as (h & w & t & o & Nr & Sum & T & O & s1 & N & H), F as (h' & w' & t' & o' & Nr' & Sum' & T' & O' & s2 & N' & H').
  pose proof (nearest_unique _ _ _ Nr Nr') as <-. assert (w = w' /\ t = t' /\ o = o') as (-> & -> & ->) by lia.
  assert (s1 = s2).
  { eapply numeral_fun; eauto. }
  subst. destruct H as [[X ->]|[X ->]], H' as [[X' ->]|[X' ->]]; reflexivity || lra.
Qed.

(** the text of a field of view has its four coordinates, each with two decimals *)
Theorem fov_text : forall f s, s = fov_str f <->
  exists a b c d, written (px (lower_left f)) a /\ written (py (lower_left f)) b /\
    written (px (upper_right f)) c /\ written (py (upper_right f)) d /\
    s = ("FOV [(" ++ a ++ ", " ++ b ++ "), (" ++ c ++ ", " ++ d ++ ")]")%string.
Proof.
  intros f s. split.
  - intros ->. exists (fixed2 (px (lower_left f))), (fixed2 (py (lower_left f))), (fixed2 (px (upper_right f))), (fixed2 (py (upper_right f))).
    repeat (split; [apply fixed2_written|]). reflexivity.
  - intros (a & b & c & d & A & B & C & D & ->). apply written_fixed2 in A, B, C, D. subst. reflexivity.
Qed.
Print Assumptions fov_text.

(** two fields of view have the same text if and only if all coordinates have
    the same sign and the same nearest hundredth; then they differ by at most
    0.01 angstroms *)
Theorem fov_text_identifies : forall f g,
  let same x y := (x < 0 <-> y < 0) /\ exists h, nearest_hundredth x h /\ nearest_hundredth y h in
  (fov_str f = fov_str g <->
   same (px (lower_left f)) (px (lower_left g)) /\ same (py (lower_left f)) (py (lower_left g)) /\
   same (px (upper_right f)) (px (upper_right g)) /\ same (py (upper_right f)) (py (upper_right g))) /\
  (fov_str f = fov_str g ->
   Rabs (px (lower_left f) - px (lower_left g)) <= 1 / 100 /\ Rabs (py (lower_left f) - py (lower_left g)) <= 1 / 100 /\
   Rabs (px (upper_right f) - px (upper_right g)) <= 1 / 100 /\ Rabs (py (upper_right f) - py (upper_right g)) <= 1 / 100).
Proof.
  intros f g same.
  assert (S : forall x y, same x y <-> fixed2 x = fixed2 y).
  { intros x y. unfold same. rewrite <- (written_iff x y (fixed2 x) (fixed2_written x)). rewrite written_fixed2. reflexivity. }
  assert (M : fov_str f = fov_str g <->
   same (px (lower_left f)) (px (lower_left g)) /\ same (py (lower_left f)) (py (lower_left g)) /\
   same (px (upper_right f)) (px (upper_right g)) /\ same (py (upper_right f)) (py (upper_right g))).
  { rewrite !S. split; [|unfold fov_str; intros (-> & -> & -> & ->); reflexivity].
    unfold fov_str. intros E. destruct not_number as [Comma Close].
    assert (W : forall x, all_chars number_char (fixed2 x)) by (intros x; apply (written_chars x), fixed2_written).
    injection E as E.
    destruct (split_words number_char _ _ _ _ _ _ (W _) (W _) Comma Comma E) as [E1 E']. injection E' as E'.
    destruct (split_words number_char _ _ _ _ _ _ (W _) (W _) Close Close E') as [E2 E'']. injection E'' as E''.
    destruct (split_words number_char _ _ _ _ _ _ (W _) (W _) Comma Comma E'') as [E3 E3']. injection E3' as E3'.
    destruct (split_words number_char _ _ _ _ _ _ (W _) (W _) Close Close E3') as [E4 _]. auto. }
  split; [exact M|]. intros E. apply M in E as (A & B & C & D).
  assert (Q : forall x y, same x y -> Rabs (x - y) <= 1 / 100).
  { intros x y [_ (h & [Hx _] & [Hy _])]. apply Rabs_le_inv in Hx, Hy. apply Rabs_le. lra. }
  auto.
Qed.
Print Assumptions fov_text_identifies.

Example fov_text_nonvacuous :
  fov_str (mkfov (mkpt (-12.5) 0) (mkpt 7.125 (-0.001))) = "FOV [(-12.50, 0.00), (7.12, -0.00)]"%string /\
  fov_str (mkfov (mkpt (-12.499) 0.005) (mkpt 7.12 (-0.004))) = "FOV [(-12.50, 0.00), (7.12, -0.00)]"%string.
Proof.
  assert (N : forall x h, nearest_hundredth x h -> round_half_even (x * 100) = h).
  { intros x h H. eapply nearest_unique; [apply nearest_rhe|exact H]. }
  assert (T : forall x h, (Rabs (x * 100 - IZR h) < 1 / 2 \/ (Rabs (x * 100 - IZR h) <= 1 / 2 /\ Z.even h = true)) -> nearest_hundredth x h).
  { intros x h [H|[H E]]; split; auto; lra. }
  unfold fov_str, fixed2. cbn [lower_left upper_right px py].
  rewrite (N (-12.5) (-1250)%Z), (N 0 0%Z), (N 7.125 712%Z), (N (-0.001) 0%Z), (N (-12.499) (-1250)%Z), (N 0.005 0%Z), (N 7.12 712%Z), (N (-0.004) 0%Z);
    try (apply T; first [left; apply Rabs_def1; lra | right; split; [apply Rabs_le; lra|reflexivity]]).
  repeat match goal with |- context [Rltb ?a ?b] =>
    first [rewrite (proj2 (Rltb_true a b)) by lra | rewrite (proj2 (Rltb_false a b)) by lra] end.
  split; reflexivity.
Qed.
