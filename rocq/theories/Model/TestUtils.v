(** putting_dune/test_utils.py: made-up observations and environments *)
From Coq Require Import Reals ZArith List Bool Arith.
From Verif Require Import Base.Prelude Base.Rounding Base.Random Model.Constants Model.Geometry
  Model.MicroscopeUtils Model.Graphene Model.Simulator.
Import ListNotations.
Open Scope R_scope.
Local Open Scope res_scope.

Section WithRng.
Context {G : Type}.
Variable s : sampler G.
Variable render : @renderer G.

(** test_utils.py:52-55: silicon_position[0] and [1] of the flattened
    positions; too few of them are an IndexError *)
Definition around_silicon (silicon_position : list R) : res fov :=
  match silicon_position with
  | x :: y :: _ => Ok (mkfov (mkpt (x - 5) (y - 5)) (mkpt (x + 5) (y + 5)))
  | _ => Raise IndexError
  end.

(** test_utils.py:58-61: the image, if one is wanted; images of
    sample_image_parameters' default size *)
Definition image_if (return_image : bool) (gr : grid) (f : fov) (g : G) : res (option image) * G :=
  if return_image then
    let '(params, g) := sample_image_parameters s 512 g in
    match render gr f params g with
    | (Ok i, g) => (Ok (Some i), g)
    | (Raise e, g) => (Raise e, g)
    | (OutOfFuel, g) => (OutOfFuel, g)
    end
  else (Ok None, g).

(** test_utils.py:44-71 create_single_silicon_observation.  [m] is a new
    PristineSingleDopedGraphene of 50 columns; its rate function is not used. *)
Definition create_single_silicon_observation (rf : rate_function) (return_image : bool) (g : G)
  : res observation * G :=
  let '(r, m, g) := material_reset s (new_material rf 50) g in
  match (_ <- r ;; sp <- get_silicon_position m ;; f <- around_silicon sp ;;
         gr <- get_atoms_in_bounds m (lower_left f) (upper_right f) ;; Ok (f, gr)) with
  | Raise e => (Raise e, g)
  | OutOfFuel => (OutOfFuel, g)
  | Ok (f, gr) =>
      match image_if return_image gr f g with
      | (Raise e, g) => (Raise e, g)
      | (OutOfFuel, g) => (OutOfFuel, g)
      | (Ok image, g) => (Ok (mkobs gr f [] (td_seconds (3 / 2)) image None), g)
      end
  end.

(** test_utils.py:74-83 create_single_silicon_pristine_sigr: generate's
    default of 50 columns *)
Definition create_single_silicon_pristine_sigr (g : G) : res grid * G :=
  let '(ps, g) := generate_pristine_graphene s 50 g in
  match argmin (map psq ps) with
  | None => (Raise ValueError, g)
  | Some i => (Ok (mkgrid ps (upd (map (fun _ => CARBON) ps) i SILICON)), g)
  end.

End WithRng.
