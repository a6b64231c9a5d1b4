(** Property C43, continued: no limit, and limits below one, also for calls that
    raise. *)
From Coq Require Import Reals ZArith List Bool Lia Arith.
From Verif Require Import Base.Prelude Base.Rounding Base.Random Model.Constants Model.MicroscopeUtils
  Model.Graphene Model.Simulator Model.ActionAdapters Model.Goals Model.FeatureConstructors Model.Environment
  Spec.Episodes Proofs.EnvironmentFacts Proofs.EpisodeFacts Props.StepLimitProps.
Import ListNotations.
Open Scope Z_scope.

(** Without a limit the wrapper answers every call as the wrapped environment
    would, raising calls included. *)
Theorem no_step_limit : forall {E F} (inner : environment E F) e calls,
  answers (limited_environment inner) calls (new_limited e None) = answers inner calls e.
Proof.
  intros E F inner e calls. unfold new_limited.
  enough (K : forall k, 0 <= k -> answers (limited_environment inner) calls (mklimited None k e) = answers inner calls e)
    by (apply K; lia).
  revert e. induction calls as [|c calls IH]; intros e k Hk; [reflexivity|].
  cbn [answers]. destruct c as [|a]; cbn [answer limited_environment e_reset e_step].
  - unfold sl_reset. cbn [sl_env sl_limit]. destruct (e_reset inner e) as [r x]. cbn [fst snd]. f_equal. apply IH. lia.
  - unfold sl_step. cbn [sl_env sl_limit sl_elapsed]. replace (k =? -1) with false by (symmetry; apply Z.eqb_neq; lia).
    destruct (e_step inner a e) as [r x]. destruct r as [ts|y|]; [|cbn [fst snd]; f_equal; apply IH; lia..].
    destruct (ts_type ts); cbn [fst snd]; f_equal; apply IH; lia.
Qed.
Print Assumptions no_step_limit.

(** A limit below one acts as a limit of one: every step ends an episode. *)
Theorem step_limit_below_one : forall {E F} (inner : environment E F) e n calls, resets_first inner -> n <= 1 ->
  answers (limited_environment inner) calls (new_limited e (Some n)) =
  answers (limited_environment inner) calls (new_limited e (Some 1)).
Proof.
  intros E F inner e n calls Rf Hn. unfold new_limited.
  enough (K : forall k, k = 0 \/ k = -1 -> answers (limited_environment inner) calls (mklimited (Some n) k e) =
    answers (limited_environment inner) calls (mklimited (Some 1) k e)) by (apply K; auto).
  revert e. induction calls as [|c calls IH]; intros e k Hk; [reflexivity|].
  cbn [answers]. destruct c as [|a]; cbn [answer limited_environment e_reset e_step].
  - unfold sl_reset. cbn [sl_env sl_limit]. destruct (e_reset inner e) as [r x]. cbn [fst snd]. f_equal. apply IH. auto.
  - unfold sl_step. cbn [sl_env sl_limit sl_elapsed]. destruct Hk as [-> | ->]; cbn [Z.eqb Pos.eqb].
    + replace (n <=? 0 + 1) with true by (symmetry; apply Z.leb_le; lia). change (1 <=? 0 + 1) with true.
      destruct (e_step inner a e) as [r x]. destruct r as [ts|y|]; [|cbn [fst snd]; f_equal; apply IH; auto..].
      destruct (ts_type ts); cbn [fst snd]; f_equal; apply IH; auto.
    + destruct (e_reset inner e) as [r x] eqn:Er. destruct r as [ts|y|]; [|cbn [fst snd]; f_equal; apply IH; auto..].
      rewrite (Rf _ _ _ Er). cbn [fst snd]. f_equal. apply IH. auto.
Qed.
Print Assumptions step_limit_below_one.

(** With such a limit every step that is answered within an episode is its last. *)
Theorem step_limit_one_ends : forall {E F} (inner : environment E F) e n h w i c ts, resets_first inner -> n <= 1 ->
  session (limited_environment inner) (new_limited e (Some n)) h w -> nth_error h i = Some (c, ts) ->
  ts_type ts <> FIRST -> ts_type ts = LAST.
Proof.
  intros E F inner e n h w i c ts Rf Hn Hs Hi T.
  destruct (step_limit_relays inner (Some n) e h w Rf Hs) as (hi & _ & Lh & R).
  destruct (nth_error hi i) as [[ci tsi]|] eqn:Ei.
  - destruct (R i c ts ci tsi Hi Ei) as (_ & _ & Tl & _). apply Tl. right.
    exists n, (firstn i h), c, ts. split; [reflexivity|].
    assert (Ef : firstn (S i) h = firstn i h ++ [(c, ts)]).
    { clear - Hi. revert i Hi. induction h as [|x h IH]; intros [|i] Hi; try discriminate.
      - injection Hi as ->. reflexivity.
      - change (x :: firstn (S i) h = x :: (firstn i h ++ [(c, ts)])). f_equal. apply IH. exact Hi. }
    split; [exact Ef|]. split; [exact T|]. rewrite Ef, steps_into_snoc. destruct (ts_type ts); [congruence|lia|lia].
  - apply nth_error_None in Ei. assert (i < length h)%nat by (apply nth_error_Some; congruence). lia.
Qed.
Print Assumptions step_limit_one_ends.

(** An environment that counts and raises for the empty action: with a limit of
    minus three a step starts an episode, the next is its last, and so on. *)
Definition ex_counting : environment nat nat :=
  mkenvironment (fun n => (Ok (mktime_step FIRST 0 1 n)%R, S n))
    (fun a n => match a with [] => (Raise ValueError, n) | _ => (Ok (mktime_step MID 0 1 n)%R, S n) end).
Example step_limit_edges_nonvacuous : resets_first ex_counting /\
  answers (limited_environment ex_counting) [CallReset; CallStep [1%R]; CallStep [1%R]; CallStep []; CallStep [1%R]]
    (new_limited 0%nat (Some (-3))) =
  [Ok (mktime_step FIRST 0 1 0%nat)%R; Ok (mktime_step LAST 0 1 1%nat)%R; Ok (mktime_step FIRST 0 1 2%nat)%R;
   Raise ValueError; Ok (mktime_step LAST 0 1 3%nat)%R].
Proof.
  split; [|reflexivity]. intros e ts e' H. cbn in H. injection H as <- _. reflexivity.
Qed.
