(** Adam, jax.example_libraries.optimizers.adam with its default decay rates, which
    diffstar/fitting_helpers/utils.py:293 calls with the step size of a fit and
    scripts/diffstarpop_scripts/fit_mstar_ssfr_pdfs_mgash.py:149 with 0.01.  The library is not
    part of the repository; this is its published source,
<<
    def init(x0):
        return x0, jnp.zeros_like(x0), jnp.zeros_like(x0)
    def update(i, g, state):
        x, m, v = state
        m = (1 - b1) * g + b1 * m
        v = (1 - b2) * jnp.square(g) + b2 * v
        mhat = m / (1 - jnp.asarray(b1, m.dtype) ** (i + 1))
        vhat = v / (1 - jnp.asarray(b2, m.dtype) ** (i + 1))
        x = x - step_size(i) * mhat / (jnp.sqrt(vhat) + eps)
        return x, m, v
    def get_params(state):
        x, _, _ = state
        return x
>>
    with [b1=0.9, b2=0.999, eps=1e-8] and a constant step size.  The three arrays of the state are
    one list of triples; a gradient of another length, which would not broadcast, is cut. *)
From Coq Require Import Reals List.
From Verif Require Import XReal.
Import ListNotations.
Open Scope R_scope.

Definition ADAM_B1 : xr := Fin (9 / 10).
Definition ADAM_B2 : xr := Fin (999 / 1000).
Definition ADAM_EPS : xr := Fin (1 / 10 ^ 8).

Definition adam_coord : Type := xr * xr * xr.
Definition AdamState : Type := list adam_coord.

Definition adam_init (step_size : xr) (x0 : list xr) : AdamState := map (fun x => (x, Fin 0, Fin 0)) x0.

Definition adam_update1 (step_size : xr) (i : nat) (g : xr) (c : adam_coord) : adam_coord :=
  let '(x, m, v) := c in
  let m := ((Fin 1 - ADAM_B1) * g + ADAM_B1 * m)%X in
  let v := ((Fin 1 - ADAM_B2) * (g * g) + ADAM_B2 * v)%X in
  let mhat := (m / (Fin 1 - xpown ADAM_B1 (i + 1)))%X in
  let vhat := (v / (Fin 1 - xpown ADAM_B2 (i + 1)))%X in
  ((x - step_size * mhat / (xsqrt vhat + ADAM_EPS))%X, m, v).
Definition adam_update (step_size : xr) (i : nat) (g : list xr) (st : AdamState) : AdamState :=
  map (fun gc => adam_update1 step_size i (fst gc) (snd gc)) (combine g st).

Definition adam_params (st : AdamState) : list xr := map (fun c => fst (fst c)) st.
