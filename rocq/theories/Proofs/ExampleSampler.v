(** A concrete generator that satisfies the range facts; used to show that
    hypotheses are satisfiable. *)
From Coq Require Import Reals ZArith List Bool Arith Lia Lra.
From Verif Require Import Base.Prelude Base.Random Proofs.BaseFacts.
Import ListNotations.
Open Scope R_scope.

Fixpoint first_positive (p : list R) : nat :=
  match p with
  | [] => 0
  | x :: p' => if Rltb 0 x then 0 else S (first_positive p')
  end.

(** the state counts the draws; every exponential draw is [e] *)
Definition ex_sampler (e : R) : sampler nat := {|
  s_seed := fun z => Z.to_nat z;
  s_uniform := fun lo hi g => ((lo + hi) / 2, S g);
  s_exponential := fun _ g => (e, S g);
  s_choice := fun n g => ((g mod n)%nat, S g);
  s_choice_p := fun p g => (first_positive p, S g);
  s_normal := fun sigma g => (sigma * INR g, S g)
|}.

Lemma ex_sampler_ok e : 0 <= e -> sampler_ok (ex_sampler e).
Proof.
  intros He. constructor; simpl.
  - intros; lra.
  - auto.
  - intros n g Hn. apply Nat.mod_upper_bound. lia.
  - intros p _ Hs Hp. induction p as [|x p IH]; simpl in *; [lra|].
    destruct (Rltb 0 x) eqn:B; simpl.
    + apply Rltb_true in B. eauto.
    + apply Rltb_false in B. apply IH; [|auto]. pose proof (Hp x (or_introl eq_refl)). lra.
  - intros; ring.
Qed.
