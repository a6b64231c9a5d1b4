From Coq Require Import Reals ZArith List Bool Lia Lra Arith Permutation.
From Verif Require Import Base.Prelude Model.Alignment Spec.Aligning Spec.Merging Spec.Clumps
  Proofs.BaseFacts Proofs.RateFacts Proofs.AlignFacts Proofs.MergeFacts.
Import ListNotations.
Open Scope R_scope.

Lemma near_sym coords r i j : near coords r i j -> near coords r j i.
Proof. intros (A & B & C). split; auto. split; auto. rewrite pdist_sym. auto. Qed.
Lemma near_dec coords r i j : {near coords r i j} + {~ near coords r i j}.
Proof.
  unfold near. destruct (lt_dec i (length coords)); [|right; tauto]. destruct (lt_dec j (length coords)); [|right; tauto].
  destruct (Rle_dec (pdist (nth i coords pzero) (nth j coords pzero)) r); [left|right]; tauto.
Qed.

(** * pairs *)
Lemma query_pairs_spec coords r i j : In (i, j) (query_pairs coords r) <-> (i < j)%nat /\ near coords r i j.
Proof.
  unfold query_pairs, near. rewrite in_flat_map. split.
  - intros (a & Ha & H). apply in_flat_map in H as (b & Hb & H). apply in_seq in Ha, Hb.
    destruct (Rleb _ r) eqn:E; [|destruct H]. destruct H as [H|[]]. injection H as <- <-. rb. repeat split; auto; lia.
  - intros (Hij & Hi & Hj & D). exists i. split; [apply in_seq; lia|]. apply in_flat_map. exists j. split; [apply in_seq; lia|].
    destruct (Rleb _ r) eqn:E; rb; [left; auto|lra].
Qed.
Lemma linked_near coords r i j : i <> j -> linked (query_pairs coords r) i j <-> near coords r i j.
Proof.
  intros N. unfold linked. rewrite !query_pairs_spec. split.
  - intros [[_ H]|[_ H]]; auto. apply near_sym; auto.
  - intros H. destruct (Nat.lt_total i j) as [L|[L|L]]; [left|congruence|right]; split; auto. apply near_sym; auto.
Qed.
Lemma query_pairs_nil coords r : query_pairs coords r = [] <-> forall i j, i <> j -> ~ near coords r i j.
Proof.
  split.
  - intros E i j N H. apply linked_near in H; auto. unfold linked in H. rewrite E in H. destruct H as [[]|[]].
  - intros K. destruct (query_pairs coords r) as [|[i j] l] eqn:E; auto. exfalso.
    assert (H : In (i, j) (query_pairs coords r)) by (rewrite E; left; auto).
    apply query_pairs_spec in H as [L H]. apply (K i j); auto. lia.
Qed.
Lemma query_pairs_some coords r : query_pairs coords r <> [] -> exists i j, i <> j /\ near coords r i j.
Proof.
  destruct (query_pairs coords r) as [|[i j] l] eqn:E; [congruence|]. intros _.
  assert (H : In (i, j) (query_pairs coords r)) by (rewrite E; left; auto).
  apply query_pairs_spec in H as [L H]. exists i, j. split; auto. lia.
Qed.
Lemma maximal_clump coords r c : maximal_clique (length coords) (query_pairs coords r) c <-> clump coords r c.
Proof.
  unfold maximal_clique, clique, clump. split.
  - intros ((A & B & C) & D & F). repeat (split; auto).
    + apply linked_near; auto.
    + intros k Hk N. destruct (F k Hk N) as (i & Hi & L). exists i. split; auto. intro Q. apply L, linked_near; auto.
      intros ->. auto.
  - intros (D & A & B & C & F). repeat (split; auto).
    + intros i j Hi Hj N. apply linked_near; auto.
    + intros k Hk N. destruct (F k Hk N) as (i & Hi & L). exists i. split; auto. intro Q. apply L, linked_near; auto.
      intros ->. auto.
Qed.
Lemma same_members_sym c c' : same_members c c' -> same_members c' c.
Proof. intros H i. symmetry. apply H. Qed.
Lemma found_clumps find coords r : cliques_ok find -> all_clumps coords r (find (length coords) (query_pairs coords r)).
Proof.
  intros [S1 S2 S3]. split; [|split].
  - intros c H. apply maximal_clump. eapply S1; eauto.
  - intros c H. apply maximal_clump in H. eapply S2; eauto.
  - intros a b c c' N Ha Hb H. destruct (Nat.lt_total a b) as [L|[L|L]]; [|congruence|].
    + eapply S3; eauto.
    + eapply (S3 _ _ b a); eauto. apply same_members_sym; auto.
Qed.
Lemma merge_clique_centre coords counts c : merge_clique coords counts c = centre coords counts c.
Proof.
  unfold merge_clique, centre, total. set (t := rsum _).
  assert (K : forall l, psum (map (fun i => pscale (nth i counts 0 / t) (nth i coords pzero)) l) =
                pscale (/ t) (psum (map (fun i => pscale (nth i counts 0) (nth i coords pzero)) l))).
  { induction l as [|i l IH]; cbn [map psum fold_right]; [apply pt_eq; cbn; ring|]. 
    unfold psum in IH. rewrite IH. apply pt_eq; cbn; unfold Rdiv; ring. }
  apply K.
Qed.
Lemma clique_loop_clumping find r : cliques_ok find -> forall n coords counts,
  clumping r n (coords, counts) (clique_loop find r n coords counts).
Proof.
  intros K. induction n as [|n IH]; intros coords counts; cbn [clique_loop]; [constructor|].
  destruct (query_pairs coords r) as [|e es] eqn:E.
  - apply clumping_apart. apply query_pairs_nil; auto.
  - rewrite <- E. eapply clumping_round.
    + apply query_pairs_some. rewrite E. discriminate.
    + apply found_clumps; eauto.
    + erewrite <- map_ext by (intro; apply merge_clique_centre). apply IH.
Qed.

(** * every point is in a clump *)
Lemma grow_clump coords r : forall m c, (length coords - length c <= m)%nat ->
  c <> [] -> NoDup c -> (forall i, In i c -> (i < length coords)%nat) ->
  (forall i j, In i c -> In j c -> i <> j -> near coords r i j) ->
  exists c', clump coords r c' /\ incl c c'.
Proof.
  induction m as [|m IH]; intros c Hm N Nd B P.
  - exists c. split; [|apply incl_refl]. repeat (split; auto); try (apply P; auto); try (apply B; auto).
    intros k Hk Nk. exfalso.
    assert (NoDup (k :: c)) by (constructor; auto).
    assert (Hl : incl (k :: c) (seq 0 (length coords))).
    { intros i [<-|Hi]; apply in_seq; [lia|]. specialize (B i Hi). lia. }
    apply NoDup_incl_length in Hl; auto. rewrite seq_length in Hl. cbn in Hl. lia.
  - (* is there something to add? *)
    destruct (existsb (fun k => if in_dec Nat.eq_dec k c then false else forallb (fun i => if near_dec coords r i k then true else false) c)
                (seq 0 (length coords))) eqn:E.
    + apply existsb_exists in E as (k & Hk & E). apply in_seq in Hk.
      destruct (in_dec Nat.eq_dec k c) as [|Nk]; [discriminate|]. rewrite forallb_forall in E.
      assert (Nr : forall i, In i c -> near coords r i k).
      { intros i Hi. specialize (E i Hi). destruct (near_dec coords r i k); auto. discriminate. }
      destruct (IH (k :: c)) as (c' & Hc & Hi).
      * cbn [length]. lia.
      * discriminate.
      * constructor; auto.
      * intros i [<-|Hi]; [lia|auto].
      * intros i j [<-|Hi] [<-|Hj] Nij; [congruence|apply near_sym; auto|auto|auto].
      * exists c'. split; auto. intros i Hi'. apply Hi. right; auto.
    + exists c. split; [|apply incl_refl]. repeat (split; auto); try (apply P; auto); try (apply B; auto).
      intros k Hk Nk.
      assert (F : (if in_dec Nat.eq_dec k c then false else forallb (fun i => if near_dec coords r i k then true else false) c) = false).
      { destruct (if in_dec Nat.eq_dec k c then false else _) eqn:Q; auto. exfalso.
        assert (X : existsb (fun k => if in_dec Nat.eq_dec k c then false else forallb (fun i => if near_dec coords r i k then true else false) c)
                (seq 0 (length coords)) = true) by (apply existsb_exists; exists k; split; auto; apply in_seq; lia).
        congruence. }
      destruct (in_dec Nat.eq_dec k c); [contradiction|].
      clear -F. induction c as [|i c IH]; cbn in F; [discriminate|].
      destruct (near_dec coords r i k).
      * destruct (IH F) as (j & Hj & Q). exists j. split; [right|]; auto.
      * exists i. split; [left|]; auto.
Qed.
Lemma in_a_clump coords r i : (i < length coords)%nat -> exists c, clump coords r c /\ In i c.
Proof.
  intros Hi. destruct (grow_clump coords r (length coords) [i]) as (c & Hc & Hs).
  - lia.
  - discriminate.
  - constructor; [intros []|constructor].
  - intros j [<-|[]]; auto.
  - intros a b [<-|[]] [<-|[]] N; congruence.
  - exists c. split; auto. apply Hs. left; auto.
Qed.

(** * counts *)
Definition times (i : nat) (cs : list (list nat)) : nat := length (filter (fun c => if in_dec Nat.eq_dec i c then true else false) cs).
Lemma rsum_map_plus {A} (f g : A -> R) l : rsum (map (fun x => f x + g x) l) = rsum (map f l) + rsum (map g l).
Proof. induction l as [|x l IH]; cbn; [lra|]. unfold rsum in *. rewrite IH. lra. Qed.
Lemma rsum_perm l l' : Permutation l l' -> rsum l = rsum l'.
Proof. unfold rsum. induction 1; cbn; lra. Qed.
Lemma rsum_indicator (f : nat -> R) n c : NoDup c -> (forall i, In i c -> (i < n)%nat) ->
  rsum (map f c) = rsum (map (fun i => if in_dec Nat.eq_dec i c then f i else 0) (seq 0 n)).
Proof.
  intros Nd B. 
  assert (P : Permutation c (filter (fun i => if in_dec Nat.eq_dec i c then true else false) (seq 0 n))).
  { apply NoDup_Permutation; auto.
    - apply NoDup_filter, seq_NoDup.
    - intro i. rewrite filter_In, in_seq. destruct (in_dec Nat.eq_dec i c) as [H|H]; split; intros Q.
      + split; auto. specialize (B i H). lia.
      + exact H.
      + contradiction.
      + destruct Q as [_ Q]. discriminate. }
  rewrite (rsum_perm _ _ (Permutation_map f P)). generalize (seq 0 n). clear. induction l as [|i l IH]; cbn; auto.
  destruct (in_dec Nat.eq_dec i c); cbn; unfold rsum in *; rewrite IH; lra.
Qed.
Lemma total_times counts n cs : (forall c, In c cs -> NoDup c /\ forall i, In i c -> (i < n)%nat) ->
  rsum (map (total counts) cs) = rsum (map (fun i => INR (times i cs) * nth i counts 0) (seq 0 n)).
Proof.
  induction cs as [|c cs IH]; intros K.
  - cbn. unfold times. cbn. generalize (seq 0 n). induction l as [|i l IHl]; cbn; auto. unfold rsum in *. rewrite <- IHl. lra.
  - cbn [map]. destruct (K c (or_introl eq_refl)) as [Nd B].
    change (rsum (total counts c :: map (total counts) cs)) with (total counts c + rsum (map (total counts) cs)).
    rewrite IH by (intros; apply K; right; auto). unfold total. rewrite (rsum_indicator _ n c Nd B), <- rsum_map_plus.
    f_equal. apply map_ext. intro i. unfold times. cbn [filter].
    destruct (in_dec Nat.eq_dec i c); cbn [length]; [rewrite S_INR|]; lra.
Qed.
Lemma rsum_le {A} (f g : A -> R) l : (forall x, In x l -> f x <= g x) -> rsum (map f l) <= rsum (map g l).
Proof.
  induction l as [|x l IH]; cbn; intros K; [lra|]. unfold rsum in *. specialize (K x (or_introl eq_refl)) as Kx.
  assert (fold_right Rplus 0 (map f l) <= fold_right Rplus 0 (map g l)) by (apply IH; intros; apply K; auto). lra.
Qed.
Lemma times_pos coords r cs i : all_clumps coords r cs -> (i < length coords)%nat -> (1 <= times i cs)%nat.
Proof.
  intros (_ & Cp & _) Hi. destruct (in_a_clump coords r i Hi) as (c & Hc & Hin).
  destruct (Cp c Hc) as (c' & Hc' & Sm). unfold times.
  assert (In c' (filter (fun c => if in_dec Nat.eq_dec i c then true else false) cs)).
  { apply filter_In. split; auto. destruct (in_dec Nat.eq_dec i c') as [|N]; auto. exfalso. apply N, Sm; auto. }
  destruct (filter _ cs); [destruct H|cbn; lia].
Qed.
(** if nearness is transitive, nobody is in two clumps *)
Lemma times_one coords r cs i : all_clumps coords r cs -> (i < length coords)%nat ->
  (forall a b c, near coords r a b -> near coords r b c -> a <> c -> near coords r a c) ->
  times i cs = 1%nat.
Proof.
  intros All Hi Tr. pose proof (times_pos _ _ _ _ All Hi) as P. destruct All as (Sd & _ & Once).
  destruct (Nat.eq_dec (times i cs) 1) as [|N]; auto. exfalso.
  assert (Same : forall c c', clump coords r c -> clump coords r c' -> In i c -> In i c' -> same_members c c').
  { assert (Half : forall c c', clump coords r c -> clump coords r c' -> In i c -> In i c' -> forall j, In j c -> In j c').
    { intros c c' (_ & _ & B & Pc & _) (_ & _ & B' & Pc' & Mx) Ic Ic' j Hj.
      destruct (in_dec Nat.eq_dec j c') as [|Nj]; auto. exfalso.
      destruct (Mx j (B j Hj) Nj) as (k & Hk & Nn). apply Nn.
      assert (j <> i) by (intros ->; contradiction).
      destruct (Nat.eq_dec k i) as [->|Nk]; [apply Pc; auto|].
      apply (Tr k i j); auto. intros ->. contradiction. }
    intros c c' H1 H2 I1 I2 j. split; apply Half; auto. }
  assert (Two : exists a b c c', a <> b /\ nth_error cs a = Some c /\ nth_error cs b = Some c' /\ In i c /\ In i c').
  { clear -P N. assert (T : (2 <= times i cs)%nat) by lia. clear P N. induction cs as [|c cs IH]; [cbn in T; lia|].
    unfold times in T. cbn [filter] in T. destruct (in_dec Nat.eq_dec i c) as [H|H].
    - cbn [length] in T.
      destruct (filter (fun c => if in_dec Nat.eq_dec i c then true else false) cs) as [|c' l] eqn:E; [cbn in T; lia|].
      assert (Hc : In c' cs /\ In i c').
      { assert (Q : In c' (filter (fun c => if in_dec Nat.eq_dec i c then true else false) cs)) by (rewrite E; left; auto).
        apply filter_In in Q as [Q1 Q2]. split; auto. destruct (in_dec Nat.eq_dec i c'); auto. discriminate. }
      destruct Hc as [Hc Hi]. apply In_nth_error in Hc as (b & Hb). exists 0%nat, (S b), c, c'. repeat split; auto.
    - destruct (IH T) as (a & b & c1 & c2 & Q1 & Q2 & Q3 & Q4 & Q5). exists (S a), (S b), c1, c2. repeat split; auto. }
  destruct Two as (a & b & c & c' & Nab & Ha & Hb & Hc & Hc').
  apply (Once a b c c' Nab Ha Hb). apply Same; auto; apply Sd; eapply nth_error_In; eauto.
Qed.

(** * where merged points lie *)
Definition lin (u : pt) (p : pt) : R := px u * px p + py u * py p.
Lemma lin_add u p q : lin u (padd p q) = lin u p + lin u q.
Proof. unfold lin. cbn. ring. Qed.
Lemma lin_scale u k p : lin u (pscale k p) = k * lin u p.
Proof. unfold lin. cbn. ring. Qed.
Lemma total_pos counts c n : c <> [] -> (forall i, In i c -> (i < n)%nat) -> (forall i, (i < n)%nat -> 0 < nth i counts 0) -> 0 < total counts c.
Proof.
  intros N B P. destruct c as [|i c]; [congruence|]. unfold total, rsum. cbn [map fold_right].
  assert (0 <= fold_right Rplus 0 (map (fun i => nth i counts 0) c)).
  { apply rsum_nonneg. intros x Hx. apply in_map_iff in Hx as (j & <- & Hj). left. apply P, B. right; auto. }
  specialize (P i (B i (or_introl eq_refl))). lra.
Qed.
Lemma centre_lin u b coords counts c : (forall i, In i c -> 0 <= nth i counts 0 /\ lin u (nth i coords pzero) <= b) ->
  0 < total counts c -> lin u (centre coords counts c) <= b.
Proof.
  intros K P. unfold centre. rewrite lin_scale.
  assert (S1 : lin u (psum (map (fun i => pscale (nth i counts 0) (nth i coords pzero)) c)) <= total counts c * b).
  { clear P. unfold total. induction c as [|i c IH]; cbn [map psum rsum fold_right]; [unfold lin; cbn; lra|].
    rewrite lin_add, lin_scale. destruct (K i (or_introl eq_refl)) as [K1 K2].
    specialize (IH ltac:(intros; apply K; right; auto)). unfold psum, rsum in IH. nra. }
  apply Rmult_le_reg_l with (total counts c); auto. rewrite <- Rmult_assoc, Rinv_r by lra. lra.
Qed.
Lemma clump_counts_pos coords r counts cs : all_clumps coords r cs -> (forall i, (i < length coords)%nat -> 0 < nth i counts 0) ->
  forall i, (i < length (map (centre coords counts) cs))%nat -> 0 < nth i (map (total counts) cs) 0.
Proof.
  intros (Sd & _) P i Hi. rewrite map_length in Hi.
  rewrite (nth_map_in (total counts) cs i []) by auto. destruct (Sd (nth i cs []) (nth_In _ _ Hi)) as (N & _ & B & _).
  eapply total_pos; eauto.
Qed.
Lemma clumping_lin r n st st' : clumping r n st st' -> forall u b,
  (forall i, (i < length (fst st))%nat -> 0 < nth i (snd st) 0) ->
  (forall p, In p (fst st) -> lin u p <= b) ->
  (forall p, In p (fst st') -> lin u p <= b).
Proof.
  induction 1; cbn [fst snd] in *; auto. intros u b P K. apply IHclumping.
  - apply clump_counts_pos with (r := r); auto.
  - intros p Hp. apply in_map_iff in Hp as (c & <- & Hc). destruct H0 as (Sd & _). destruct (Sd c Hc) as (N & _ & B & _).
    apply centre_lin.
    + intros i Hi. split; [left; auto|]. apply K. apply nth_In. auto.
    + eapply total_pos; eauto.
Qed.
Lemma clumping_count r n st st' : clumping r n st st' ->
  length (snd st) = length (fst st) -> (forall i, (i < length (fst st))%nat -> 0 < nth i (snd st) 0) ->
  rsum (snd st) <= rsum (snd st') /\ length (snd st') = length (fst st').
Proof.
  induction 1 as [| |n coords counts cs result Nr All Cl IH]; cbn [fst snd] in *; auto using Rle_refl.
  intros L P. assert (P' := clump_counts_pos coords r counts cs All P).
  destruct IH as [IH1 IH2]; auto; [rewrite !map_length; auto|]. split; auto.
  eapply Rle_trans; [|exact IH1].
  rewrite (total_times counts (length coords)).
  2:{ intros c Hc. destruct All as (Sd & _). destruct (Sd c Hc) as (_ & Nd & B & _). auto. }
  assert (E : counts = map (fun i => nth i counts 0) (seq 0 (length coords))).
  { rewrite <- L. clear. induction counts as [|x l IH]; auto. cbn [length seq map nth]. f_equal. rewrite <- seq_shift, map_map. exact IH. }
  rewrite E at 1. apply rsum_le. intros i Hi. apply in_seq in Hi.
  assert (T : (1 <= times i cs)%nat) by (eapply times_pos; eauto; lia). apply le_INR in T. cbn in T.
  specialize (P i ltac:(lia)). nra.
Qed.

(** * an enumeration of cliques *)
Lemma NoDup_app_disjoint {A} (l l' : list A) : NoDup l -> NoDup l' -> (forall x, In x l -> In x l' -> False) -> NoDup (l ++ l').
Proof.
  induction 1 as [|x l Nx Nd IH]; cbn; auto. intros N' D. constructor.
  - intro Q. apply in_app_or in Q as [Q|Q]; [auto|]. exact (D x (or_introl eq_refl) Q).
  - apply IH; auto. intros y H H'. exact (D y (or_intror H) H').
Qed.
Fixpoint sublists (l : list nat) : list (list nat) :=
  match l with
  | [] => [[]]
  | x :: l => map (cons x) (sublists l) ++ sublists l
  end.
Definition linkedb (edges : list (nat * nat)) (i j : nat) : bool :=
  existsb (fun e => (Nat.eqb (fst e) i && Nat.eqb (snd e) j) || (Nat.eqb (fst e) j && Nat.eqb (snd e) i)) edges.
Definition maximalb (n : nat) (edges : list (nat * nat)) (c : list nat) : bool :=
  negb (length c =? 0)%nat &&
  forallb (fun i => forallb (fun j => Nat.eqb i j || linkedb edges i j) c) c &&
  forallb (fun k => existsb (Nat.eqb k) c || existsb (fun i => negb (linkedb edges i k)) c) (seq 0 n).
Definition find_by_search : cliques_fn := fun n edges => filter (maximalb n edges) (sublists (seq 0 n)).

Lemma linkedb_spec edges i j : linkedb edges i j = true <-> linked edges i j.
Proof.
  unfold linkedb, linked. rewrite existsb_exists. split.
  - intros ((a & b) & H & E). cbn in E. apply orb_true_iff in E as [E|E]; apply andb_true_iff in E as [E1 E2];
      apply Nat.eqb_eq in E1, E2; subst; auto.
  - intros [H|H]; [exists (i, j)|exists (j, i)]; split; auto; cbn; rewrite !Nat.eqb_refl; auto. apply orb_true_r.
Qed.
Lemma sublists_incl l s : In s (sublists l) -> incl s l.
Proof.
  revert s; induction l as [|x l IH]; intros s H; cbn in H.
  - destruct H as [<-|[]]. apply incl_refl.
  - apply in_app_or in H as [H|H].
    + apply in_map_iff in H as (s' & <- & H). apply IH in H. intros y [<-|Hy]; [left|right]; auto.
    + apply IH in H. intros y Hy. right; auto.
Qed.
Lemma sublists_nodup l s : NoDup l -> In s (sublists l) -> NoDup s.
Proof.
  intros Nd. revert s; induction Nd as [|x l Nx Nd IH]; intros s H; cbn in H.
  - destruct H as [<-|[]]. constructor.
  - apply in_app_or in H as [H|H]; auto. apply in_map_iff in H as (s' & <- & H). constructor; auto.
    intro Q. apply sublists_incl in H. apply Nx; auto.
Qed.
Lemma sublists_filter f l : In (filter f l) (sublists l).
Proof.
  induction l as [|x l IH]; cbn; [left; auto|]. apply in_or_app. destruct (f x); [left|right]; auto.
  apply in_map; auto.
Qed.
Lemma sublists_eq l s s' : NoDup l -> In s (sublists l) -> In s' (sublists l) -> same_members s s' -> s = s'.
Proof.
  intros Nd. revert s s'; induction Nd as [|x l Nx Nd IH]; intros s s' H H' Sm; cbn in H, H'.
  - destruct H as [<-|[]], H' as [<-|[]]. auto.
  - apply in_app_or in H. apply in_app_or in H'.
    assert (Out : forall s, In s (sublists l) -> ~ In x s) by (intros t Ht Q; apply sublists_incl in Ht; apply Nx; auto).
    destruct H as [H|H], H' as [H'|H'].
    + apply in_map_iff in H as (t & <- & H). apply in_map_iff in H' as (t' & <- & H'). f_equal. apply IH; auto.
      intro i. specialize (Sm i). cbn in Sm. split; intro Q.
      * destruct (proj1 Sm (or_intror Q)) as [Q'|]; auto. exfalso. subst i. exact (Out t H Q).
      * destruct (proj2 Sm (or_intror Q)) as [Q'|]; auto. exfalso. subst i. exact (Out t' H' Q).
    + apply in_map_iff in H as (t & <- & H). exfalso. apply (Out s' H'). apply Sm. left; auto.
    + apply in_map_iff in H' as (t & <- & H'). exfalso. apply (Out s H). apply Sm. left; auto.
    + apply IH; auto.
Qed.
Lemma sublists_NoDup l : NoDup l -> NoDup (sublists l).
Proof.
  induction 1 as [|x l Nx Nd IH]; cbn; [constructor; [intros []|constructor]|].
  apply NoDup_app_disjoint; auto.
  - apply FinFun.Injective_map_NoDup; auto. intros a b Q. congruence.
  - intros s H H'. apply in_map_iff in H as (t & <- & _). apply sublists_incl in H'. apply Nx, H'. left; auto.
Qed.
Lemma maximalb_spec n edges c : NoDup c -> (forall i, In i c -> (i < n)%nat) ->
  maximalb n edges c = true <-> maximal_clique n edges c.
Proof.
  intros Nd B. unfold maximalb, maximal_clique, clique. rewrite !andb_true_iff, negb_true_iff, !forallb_forall. split.
  - intros ((N & C) & M). repeat (split; auto).
    + intros i j Hi Hj Nij. specialize (C i Hi). rewrite forallb_forall in C. specialize (C j Hj).
      apply orb_true_iff in C as [C|C]; [apply Nat.eqb_eq in C; contradiction|apply linkedb_spec; auto].
    + intros ->. discriminate.
    + intros k Hk Nk. specialize (M k ltac:(apply in_seq; lia)). apply orb_true_iff in M as [M|M].
      * exfalso. apply existsb_exists in M as (i & Hi & E). apply Nat.eqb_eq in E. subst. auto.
      * apply existsb_exists in M as (i & Hi & E). exists i. split; auto. intro Q. apply linkedb_spec in Q. rewrite Q in E. discriminate.
  - intros ((_ & _ & C) & N & M). repeat split.
    + destruct c; [congruence|reflexivity].
    + intros i Hi. apply forallb_forall. intros j Hj. destruct (Nat.eqb_spec i j); auto. cbn. apply linkedb_spec. auto.
    + intros k Hk. apply in_seq in Hk. destruct (in_dec Nat.eq_dec k c) as [H|H].
      * apply orb_true_iff. left. apply existsb_exists. exists k. split; auto. apply Nat.eqb_refl.
      * destruct (M k ltac:(lia) H) as (i & Hi & Q). apply orb_true_iff. right. apply existsb_exists. exists i. split; auto.
        apply negb_true_iff. destruct (linkedb edges i k) eqn:E; auto. apply linkedb_spec in E. contradiction.
Qed.
Lemma find_by_search_ok : cliques_ok find_by_search.
Proof.
  assert (Sub : forall n s, In s (sublists (seq 0 n)) -> NoDup s /\ forall i, In i s -> (i < n)%nat).
  { intros n s H. split; [eapply sublists_nodup; eauto; apply seq_NoDup|].
    intros i Hi. apply sublists_incl in H. apply H in Hi. apply in_seq in Hi. lia. }
  constructor.
  - intros n edges c H. apply filter_In in H as [H E]. destruct (Sub n c H). apply maximalb_spec; auto.
  - intros n edges c Mc. set (c' := filter (fun i => if in_dec Nat.eq_dec i c then true else false) (seq 0 n)).
    assert (Sm : same_members c c').
    { intro i. unfold c'. rewrite filter_In, in_seq. destruct Mc as ((_ & B & _) & _). specialize (B i).
      destruct (in_dec Nat.eq_dec i c) as [H|H]; split; intros Q.
      - split; auto. specialize (B H). lia.
      - exact H.
      - contradiction.
      - destruct Q as [_ Q]. discriminate. }
    exists c'. split; auto. apply filter_In. split; [apply sublists_filter|].
    destruct (Sub n c' (sublists_filter _ _)) as [Nd B]. apply maximalb_spec; auto.
    destruct Mc as ((_ & B0 & C) & N & M). repeat (split; auto).
    + intros i j Hi Hj. apply C; apply Sm; auto.
    + intros Q. destruct c as [|i c]; [congruence|]. assert (In i c') by (apply Sm; left; auto). rewrite Q in H. destruct H.
    + intros k Hk Nk. destruct (M k Hk) as (i & Hi & Q); [intro Q; apply Nk, Sm; auto|]. exists i. split; auto. apply Sm; auto.
  - intros n edges a b c c' Hab Ha Hb Sm. unfold find_by_search in *.
    assert (c = c').
    { apply nth_error_In in Ha, Hb. apply filter_In in Ha as [Ha _]. apply filter_In in Hb as [Hb _].
      eapply sublists_eq; eauto. apply seq_NoDup. }
    subst c'. assert (Nd : NoDup (filter (maximalb n edges) (sublists (seq 0 n)))) by (apply NoDup_filter, sublists_NoDup, seq_NoDup).
    rewrite NoDup_nth_error in Nd. assert (a = b); [|lia]. apply Nd; [eapply nth_error_lt; eauto|congruence].
Qed.
