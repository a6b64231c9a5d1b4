(** Property C121: wrapped environments. *)
From Coq Require Import String Ascii Reals ZArith List Bool Lia Lra.
From Verif Require Import Base.Prelude Base.Rounding Model.Simulator Model.FeatureConstructors Model.Goals Model.Environment Model.Wrappers Spec.Wrappers.
Import ListNotations.

Lemma dunder_private name : dunder name = true <-> private_name name.
Proof.
  unfold dunder, private_name. split.
  - destruct name as [|a [|b rest]]; cbn [String.prefix].
    + discriminate.
    + destruct (ascii_dec "_" a); discriminate.
    + destruct (ascii_dec "_" a) as [<-|]; [|discriminate]. destruct (ascii_dec "_" b) as [<-|]; [|discriminate]. eauto.
  - intros (rest & ->). cbn. destruct rest; reflexivity.
Qed.

Fixpoint object_rec' {V} (P : @object V -> Prop) (HP : forall own, P (Plain own)) (HN : forall own, P (Wrapper own None))
  (HW : forall own i, P i -> P (Wrapper own (Some i))) (o : object) : P o :=
  match o with
  | Plain own => HP own
  | Wrapper own None => HN own
  | Wrapper own (Some i) => HW own i (object_rec' P HP HN HW i)
  end.

(** ** Reading attributes *)

(** an attribute read through any number of wrappers is that of the outermost
    object that defines it *)
Theorem attribute_forwarded : forall {V} (o : @object V) name v, ~ private_name name ->
  get_attribute o name = Ok v <->
  exists n x, inside_of n o x /\ defines x name v /\ forall k y, (k < n)%nat -> inside_of k o y -> lacks y name.
Proof.
  intros V o name v P. assert (D : dunder name = false).
  { destruct (dunder name) eqn:E; auto. exfalso. apply P. apply dunder_private. exact E. }
  induction o as [own|own|own inner IH] using object_rec'; cbn [get_attribute].
  - destruct (lookup name own) as [w|] eqn:E; split.
    + intros K. injection K as <-. exists 0%nat, (Plain own). split; [constructor|]. split; [exact E|]. intros; lia.
    + intros (n & x & I & Df & _). inversion I; subst. unfold defines in Df; cbn in Df. congruence.
    + discriminate.
    + intros (n & x & I & Df & _). inversion I; subst. unfold defines in Df; cbn in Df. congruence.
  - rewrite D. destruct (lookup name own) as [w|] eqn:E; split.
    + intros K. injection K as <-. exists 0%nat, (Wrapper own None). split; [constructor|]. split; [exact E|]. intros; lia.
    + intros (n & x & I & Df & _). inversion I; subst. unfold defines in Df; cbn in Df. congruence.
    + discriminate.
    + intros (n & x & I & Df & _). inversion I; subst. unfold defines in Df; cbn in Df. congruence.
  - destruct (lookup name own) as [w|] eqn:E; [split|].
    + intros K. injection K as <-. exists 0%nat, (Wrapper own (Some inner)). split; [constructor|]. split; [exact E|]. intros; lia.
    + intros (n & x & I & Df & L). destruct n as [|n].
      * inversion I; subst. unfold defines in Df; cbn in Df. congruence.
      * assert (K := L 0%nat _ ltac:(lia) (inside_here _)). unfold lacks in K; cbn in K. congruence.
    + rewrite D. rewrite IH. split; intros (n & x & I & Df & L).
      * exists (S n), x. split; [constructor; exact I|]. split; auto. intros [|k] y K Iy; inversion Iy; subst; [exact E|].
        apply (L k); auto; lia.
      * inversion I as [|n' own' inner' x' I' E1 E2]; subst; [unfold defines in Df; cbn in Df; congruence|].
        exists n', x. split; [exact I'|]. split; auto. intros k y K Iy. apply (L (S k)); [lia|constructor; exact Iy].
Qed.
Print Assumptions attribute_forwarded.

(** private names are not forwarded: without a definition of its own a wrapper
    answers AttributeError, whatever it wraps, also before __init__ has run *)
Theorem private_not_forwarded : forall {V} (o : @object V) name, private_name name ->
  (forall v, get_attribute o name = Ok v <-> defines o name v) /\
  (lacks o name -> get_attribute o name = Raise AttributeError /\ has_attribute o name = Ok false).
Proof.
  intros V o name P. apply dunder_private in P. unfold defines, lacks, has_attribute. split.
  - intros v. destruct o as [own|own w]; cbn [get_attribute own_of]; rewrite ?P; destruct (lookup name own);
      split; intros K; congruence.
  - intros L. destruct o as [own|own w]; cbn [get_attribute own_of] in *; rewrite L, ?P; auto.
Qed.
Print Assumptions private_not_forwarded.

(** an attribute that no object defines is an AttributeError, except around a
    wrapper whose __init__ has not run: reading it there never ends *)
Theorem attribute_missing : forall {V} (o : @object V) name, ~ private_name name ->
  (forall n x, inside_of n o x -> lacks x name) ->
  (get_attribute o name = Raise AttributeError <-> exists n own, inside_of n o (Plain own)) /\
  (get_attribute o name = Raise RuntimeError <-> exists n own, inside_of n o (Wrapper own None)) /\
  (get_attribute o name = Raise AttributeError \/ get_attribute o name = Raise RuntimeError).
Proof.
  intros V o name P. assert (D : dunder name = false).
  { destruct (dunder name) eqn:E; auto. exfalso. apply P. apply dunder_private. exact E. }
  induction o as [own|own|own inner IH] using object_rec'; intros L; cbn [get_attribute];
    assert (E := L 0%nat _ (inside_here _)); unfold lacks in E; cbn [own_of] in E; rewrite E.
  - split; [|split; [|auto]].
    + split; [|reflexivity]. intros _. exists 0%nat, own. constructor.
    + split; [discriminate|]. intros (n & ow & I). inversion I.
  - rewrite D. split; [|split; [|auto]].
    + split; [discriminate|]. intros (n & ow & I). inversion I.
    + split; [|reflexivity]. intros _. exists 0%nat, own. constructor.
  - rewrite D. destruct IH as (A & B & C).
    { intros n x I. apply (L (S n)). constructor. exact I. }
    split; [|split; [|exact C]].
    + rewrite A. split; intros (n & ow & I).
      * exists (S n), ow. constructor. exact I.
      * inversion I as [|n' own' inner' x' I']; subst. exists n', ow. exact I'.
    + rewrite B. split; intros (n & ow & I).
      * exists (S n), ow. constructor. exact I.
      * inversion I as [|n' own' inner' x' I']; subst. exists n', ow. exact I'.
Qed.
Print Assumptions attribute_missing.

(** hasattr says whether getattr succeeds *)
Theorem has_attribute_exact : forall {V} (o : @object V) name,
  (has_attribute o name = Ok true <-> exists v, get_attribute o name = Ok v) /\
  (has_attribute o name = Ok false <-> get_attribute o name = Raise AttributeError) /\
  (forall x, has_attribute o name = Raise x <-> x <> AttributeError /\ get_attribute o name = Raise x).
Proof.
  intros V o name. unfold has_attribute. destruct (get_attribute o name) as [v|[]|]; (split; [|split]); try intros x;
    split; intros K; try discriminate; eauto; try (destruct K as (? & K); congruence);
    try (injection K as <-; split; [discriminate|reflexivity]); try (destruct K as [K1 K2]; congruence).
Qed.
Print Assumptions has_attribute_exact.

(** ** Setting attributes *)

Lemma lookup_set {V} name (v : V) l : forall other,
  lookup other (set_in name v l) = if String.eqb name other then Some v else lookup other l.
Proof.
  induction l as [|[n w] l IH]; intros other; cbn [set_in lookup].
  - destruct (String.eqb name other); reflexivity.
  - destruct (String.eqb_spec n name) as [->|N]; cbn [lookup].
    + destruct (String.eqb name other); reflexivity.
    + rewrite IH. destruct (String.eqb_spec n other) as [->|]; [|reflexivity].
      destruct (String.eqb_spec name other) as [K|]; [congruence|reflexivity].
Qed.

(** an attribute that is set is read back; the others and everything that is
    wrapped stay as they were *)
Theorem attribute_set : forall {V} (o : @object V) name v,
  get_attribute (set_attribute o name v) name = Ok v /\
  (forall other, other <> name -> get_attribute (set_attribute o name v) other = get_attribute o other) /\
  environment_property (set_attribute o name v) = environment_property o.
Proof.
  intros V o name v. split; [|split].
  - destruct o as [own|own w]; cbn [set_attribute get_attribute]; rewrite lookup_set, String.eqb_refl; reflexivity.
  - intros other N. destruct o as [own|own w]; cbn [set_attribute get_attribute]; rewrite lookup_set;
      (destruct (String.eqb_spec name other) as [K|]; [congruence|reflexivity]).
  - destruct o; reflexivity.
Qed.
Print Assumptions attribute_set.

(** the environment of a wrapper is the one it was made with *)
Theorem environment_reached : forall {V} (o : @object V),
  (forall e, environment_property o = Ok e <-> exists own, o = Wrapper own (Some e)) /\
  (environment_property o = Raise AttributeError <-> exists own, o = Plain own) /\
  (environment_property o = Raise RuntimeError <-> exists own, o = Wrapper own None).
Proof.
  intros V o. destruct o as [own|own [e|]]; cbn [environment_property]; (split; [|split]); try intros e'; split; intros H;
    try discriminate; try (destruct H as (own' & H); first [discriminate | injection H as _ ->; reflexivity | reflexivity]); eauto.
  injection H as ->. eauto.
Qed.
Print Assumptions environment_reached.

(** so setting an attribute of the environment through the wrapper does not
    reach the environment *)
Theorem set_through_wrapper_refuted : forall {V} own (inner : @object V) name v old,
  get_attribute inner name = Ok old ->
  let o := set_attribute (Wrapper own (Some inner)) name v in
  get_attribute o name = Ok v /\
  exists e, environment_property o = Ok e /\ get_attribute e name = Ok old.
Proof.
  intros V own inner name v old E o. split; [apply attribute_set|]. exists inner. split; [reflexivity|exact E].
Qed.
Print Assumptions set_through_wrapper_refuted.

Example wrapper_nonvacuous :
  let dune := Plain [("sim", 1); ("goal", 2); ("seed", 3)]%string in
  let env := Wrapper [("step", 4); ("_step_limit", 600)]%string (Some dune) in
  let env2 := Wrapper [("step", 5); ("_step_limit", 7)]%string (Some env) in
  get_attribute env2 "goal" = Ok 2 /\ get_attribute env2 "_step_limit" = Ok 7 /\
  get_attribute env2 "material" = Raise AttributeError /\
  get_attribute (Wrapper [] None) "goal" = @Raise Z RuntimeError /\
  get_attribute (Wrapper [] None) "__setstate__" = @Raise Z AttributeError /\
  get_attribute (set_attribute env2 "goal" 9) "goal" = Ok 9 /\
  fmap_res (fun e => get_attribute e "goal") (environment_property (set_attribute env2 "goal" 9)) = Ok (Ok 2).
Proof. cbv zeta. repeat split; reflexivity. Qed.

(** ** Calls *)

(** the plain wrapper answers every history of calls as the wrapped environment *)
Theorem wrapper_transparent : forall {E F} (m : environment E F) calls e,
  run_calls (wrapped_environment m) calls e = run_calls m calls e.
Proof.
  intros E F m calls. induction calls as [|[a|] calls IH]; intros e; [reflexivity| |]; cbn [run_calls run_call wrapped_environment e_step e_reset].
  - destruct (e_step m a e) as [r e']. f_equal. apply IH.
  - destruct (e_reset m e) as [r e']. f_equal. apply IH.
Qed.
Print Assumptions wrapper_transparent.

(** a step limit of None changes nothing *)
Theorem no_limit_transparent : forall {E F} (m : environment E F) calls e, resets_first m ->
  run_calls (limited_environment m) calls (new_limited e None) = run_calls m calls e.
Proof.
  intros E F m calls e Hr. unfold new_limited.
  assert (G : forall calls k e, (0 <= k)%Z -> run_calls (limited_environment m) calls (mklimited None k e) = run_calls m calls e).
  { clear e calls. induction calls as [|[a|] calls IH]; intros k e Hk; [reflexivity| |];
      cbn [run_calls run_call limited_environment e_step e_reset]; unfold sl_step, sl_reset; cbn [sl_limit sl_elapsed sl_env].
    - destruct (Z.eqb_spec k (-1)) as [K|_]; [lia|]. destruct (e_step m a e) as [[ts|x|] e'].
      + destruct (ts_type ts); f_equal; apply IH; lia.
      + f_equal. apply IH; lia.
      + f_equal. apply IH; lia.
    - destruct (e_reset m e) as [r e']. f_equal. apply IH. lia. }
  apply G. lia.
Qed.
Print Assumptions no_limit_transparent.

(** how the counters of two nested limits and of a single one correspond *)
Definition together {E} (m n : option Z) (w2 : limited (E := limited (E := E))) (w : limited (E := E)) : Prop :=
  sl_limit w2 = m /\ sl_limit (sl_env w2) = n /\ sl_limit w = smaller m n /\ sl_env (sl_env w2) = sl_env w /\
  ((0 <= sl_elapsed w /\ sl_elapsed w2 = sl_elapsed w /\ sl_elapsed (sl_env w2) = sl_elapsed w)%Z \/
   (sl_elapsed w = -1 /\ (sl_elapsed w2 = -1 \/ (0 <= sl_elapsed w2 /\ sl_elapsed (sl_env w2) = -1)))%Z).

Lemma together_call {E F} (m0 : environment E F) m n call w2 w : resets_first m0 -> together m n w2 w ->
  let '(r2, w2') := run_call (limited_environment (limited_environment m0)) call w2 in
  let '(r, w') := run_call (limited_environment m0) call w in
  r2 = r /\ together m n w2' w'.
Proof.
  intros Hr. destruct w2 as [m' j [n' k e]]. destruct w as [l i e0]. unfold together. cbn [sl_limit sl_elapsed sl_env].
  intros (-> & -> & -> & -> & Hc). destruct call as [a|]; cbn [run_call limited_environment e_step e_reset].
  - unfold sl_step at 1. cbn [sl_limit sl_elapsed sl_env limited_environment e_step e_reset].
    destruct Hc as [(Hi & -> & ->)|(-> & Hc)].
    + destruct (Z.eqb_spec i (-1)) as [K|_]; [lia|]. unfold sl_step. cbn [sl_limit sl_elapsed sl_env].
      destruct (Z.eqb_spec i (-1)) as [K|_]; [lia|].
      destruct (e_step m0 a e0) as [[ts|x|] e'].
      2,3: (cbn [sl_limit sl_elapsed sl_env]; split; [reflexivity|]; repeat split; auto; lia).
      destruct (ts_type ts) eqn:Ty.
      * rewrite Ty. cbn [sl_limit sl_elapsed sl_env]. cbn [sl_limit sl_elapsed sl_env]; split; [reflexivity|]. repeat split; auto; lia.
      * destruct m as [m|], n as [n|]; cbn [smaller].
        -- destruct (Z.leb_spec n (i + 1)), (Z.leb_spec m (i + 1)), (Z.leb_spec (Z.min m n) (i + 1)); try lia;
             cbn [truncation ts_type ts_reward ts_observation ts_discount sl_limit sl_elapsed sl_env]; rewrite ?Ty;
             cbn [sl_limit sl_elapsed sl_env]; (split; [reflexivity|]); repeat split; auto; lia.
        -- destruct (Z.leb_spec m (i + 1)); cbn [sl_limit sl_elapsed sl_env]; rewrite Ty;
             cbn [sl_limit sl_elapsed sl_env]; (split; [reflexivity|]); repeat split; auto; lia.
        -- destruct (Z.leb_spec n (i + 1)); cbn [truncation ts_type sl_limit sl_elapsed sl_env]; rewrite ?Ty;
             cbn [sl_limit sl_elapsed sl_env]; (split; [reflexivity|]); repeat split; auto; lia.
        -- cbn [sl_limit sl_elapsed sl_env]. rewrite Ty. cbn [sl_limit sl_elapsed sl_env]. split; [reflexivity|]. repeat split; auto; lia.
      * destruct m as [m|], n as [n|]; cbn [smaller].
        -- destruct (Z.leb_spec n (i + 1)), (Z.leb_spec m (i + 1)), (Z.leb_spec (Z.min m n) (i + 1)); try lia;
             cbn [truncation ts_type ts_reward ts_observation ts_discount sl_limit sl_elapsed sl_env]; rewrite ?Ty;
             cbn [sl_limit sl_elapsed sl_env]; (split; [reflexivity|]); repeat split; auto; lia.
        -- destruct (Z.leb_spec m (i + 1)); cbn [sl_limit sl_elapsed sl_env]; rewrite Ty;
             cbn [sl_limit sl_elapsed sl_env]; (split; [reflexivity|]); repeat split; auto; lia.
        -- destruct (Z.leb_spec n (i + 1)); cbn [truncation ts_type sl_limit sl_elapsed sl_env]; rewrite ?Ty;
             cbn [sl_limit sl_elapsed sl_env]; (split; [reflexivity|]); repeat split; auto; lia.
        -- cbn [sl_limit sl_elapsed sl_env]. rewrite Ty. cbn [sl_limit sl_elapsed sl_env]. split; [reflexivity|]. repeat split; auto; lia.
    + unfold sl_step, sl_reset. cbn [sl_limit sl_elapsed sl_env]. rewrite Z.eqb_refl.
      destruct Hc as [->|(Hj & ->)].
      * rewrite Z.eqb_refl. destruct (e_reset m0 e0) as [[ts|x|] e'] eqn:Er.
        2,3: (cbn [sl_limit sl_elapsed sl_env]; split; [reflexivity|]; repeat split; auto; lia).
        rewrite (Hr _ _ _ Er). cbn [sl_limit sl_elapsed sl_env]; split; [reflexivity|]. repeat split; auto; lia.
      * destruct (Z.eqb_spec j (-1)) as [K|_]; [lia|]. rewrite Z.eqb_refl. destruct (e_reset m0 e0) as [[ts|x|] e'] eqn:Er.
        2,3: (cbn [sl_limit sl_elapsed sl_env]; split; [reflexivity|]; repeat split; auto; lia).
        rewrite (Hr _ _ _ Er). rewrite (Hr _ _ _ Er). cbn [sl_limit sl_elapsed sl_env]; split; [reflexivity|]. repeat split; auto; lia.
  - unfold sl_reset. cbn [sl_limit sl_elapsed sl_env limited_environment e_reset]. unfold sl_reset. cbn [sl_limit sl_elapsed sl_env].
    destruct (e_reset m0 e0) as [r e']. cbn [sl_limit sl_elapsed sl_env]; split; [reflexivity|]. repeat split; auto; lia.
Qed.

(** two step limits around an environment act as the smaller one *)
Theorem nested_limits : forall {E F} (m0 : environment E F) m n calls e, resets_first m0 ->
  run_calls (limited_environment (limited_environment m0)) calls (new_limited (new_limited e n) m) =
  run_calls (limited_environment m0) calls (new_limited e (smaller m n)).
Proof.
  intros E F m0 m n calls e Hr.
  assert (T : together m n (new_limited (new_limited e n) m) (new_limited e (smaller m n))).
  { unfold together, new_limited; cbn. repeat split; auto. left; lia. }
  revert T. generalize (new_limited (new_limited e n) m), (new_limited e (smaller m n)).
  induction calls as [|c calls IH]; intros w2 w T; [reflexivity|]. cbn [run_calls].
  pose proof (together_call m0 m n c w2 w Hr T) as K.
  destruct (run_call (limited_environment (limited_environment m0)) c w2) as [r2 w2'].
  destruct (run_call (limited_environment m0) c w) as [r w']. destruct K as [-> T']. f_equal. apply IH. exact T'.
Qed.
Print Assumptions nested_limits.

(** the environments of this package reset to a first time step, also wrapped *)
Theorem shipped_resets_first : forall {G St Goal F} s render adapter features goal_m fuel,
  resets_first (@dune_environment G St Goal F s render adapter features goal_m fuel) /\
  forall E (m : environment E F), resets_first m -> resets_first (limited_environment m) /\ resets_first (wrapped_environment m).
Proof.
  intros. split.
  - intros e ts e' H. cbn in H. apply (f_equal fst) in H. cbn in H. unfold env_reset in H.
    destruct (out_result (sim_do_reset s render (fc_requires_image features) (env_sim e) (env_rng e))); try discriminate.
    match type of H with context[gm_reset goal_m ?x ?y ?z] => destruct (gm_reset goal_m x y z) as [[[[]|?|] ?] ?] end; try discriminate.
    match type of H with context[fc_get_features features ?x ?y] => destruct (fc_get_features features x y) end; try discriminate.
    cbn in H. injection H as <-. reflexivity.
  - intros E m Hm. split.
    + intros [l k e] ts w H. cbn in H. unfold sl_reset in H. cbn [sl_env] in H.
      destruct (e_reset m e) as [r e'] eqn:Er. injection H as -> _. eapply Hm; exact Er.
    + intros e ts e' H. cbn in H. eapply Hm; exact H.
Qed.
Print Assumptions shipped_resets_first.

(** a toy environment: limits 5 and 2, three steps *)
Example nested_limits_nonvacuous :
  let toy : environment nat nat := mkenvironment
    (fun e => (Ok (mktime_step FIRST 0%R 1%R e), S e))
    (fun _ e => (Ok (mktime_step MID 1%R 1%R e), S e)) in
  resets_first toy /\
  map (fun r => match r with Ok ts => Some (ts_type ts) | _ => None end)
    (run_calls (limited_environment (limited_environment toy)) [None; Some []; Some []; Some []; Some []]
       (new_limited (new_limited 0%nat (Some 2%Z)) (Some 5%Z))) = [Some FIRST; Some MID; Some LAST; Some FIRST; Some MID].
Proof. cbv zeta. split; [|reflexivity]. intros e ts e' H. cbn in H. injection H as <- _. reflexivity. Qed.
