(** Frequency grids built by np.arange with a step that is not an integer:
    doc/docstring_plots/processing/freq_domain/group_delay.py line 19 (the same call as
    tftb/processing/freq_domain.py line 100 and tests/test_freq_domain.py line 41) and
    doc/_gallery/plot_2_7_multicomp_nonstat_instfreq_grpdlay.py line 32.
    numpy takes ceil((stop - start) / step) entries; the first two are start and
    start + step, entry i is start + i * ((start + step) - start), all in double precision. *)
From Coq Require Import Reals ZArith List Lia Lra Bool.
From Coquelicot Require Import Coquelicot.
From Flocq Require Import Core.
From Verif Require Import Py Scalars M_utils M_dom.
Import ListNotations.
Local Open Scope Z_scope.

Definition arange64_len (a b s : R) : Z := Z.max 0 (Zceil (b64 (b64 (b - a) / s))).
Definition arange64_at (a s : R) (i : Z) : R :=
  if i =? 0 then a else if i =? 1 then b64 (a + s)
  else b64 (a + b64 (IZR i * b64 (b64 (a + s) - a))).
Definition arange64 (a b s : R) : list R := map (arange64_at a s) (arange 0 (arange64_len a b s)).
(** np.arange(0.1, 0.38, step=0.04) *)
Definition doc_fnorm : list R := arange64 (b64 (1 / 10)) (b64 (38 / 100)) (b64 (4 / 100)).
(** np.arange(0.51, step=0.01) *)
Definition gallery_fn : list R := arange64 0 (b64 (51 / 100)) (b64 (1 / 100)).
(** The two programs, for any signal. *)
Definition doc_group_delay (x : list C) : res (list (option R)) := group_delay x (Some doc_fnorm).
Definition gallery_group_delay (x : list C) : res (list (option R)) := group_delay x (Some gallery_fn).
