(** The programs of doc/docstring_plots and of the docstrings, as functions of
    their sizes and frequencies, and the keying generators of
    tftb/generators/analytic_signals.py called with a float number of samples
    per component, as two of those programs do. *)
From Coq Require Import Reals ZArith List Lia Lra Bool.
From Coquelicot Require Import Coquelicot.
From Flocq Require Import Core.
From Verif Require Import Py Scalars CSum DFT M_base M_stft M_reas M_post M_dom M_gen1 M_gen2 M_gen3 M_gallery.
Import ListNotations.
Local Open Scope Z_scope.

(** A Python number given for n_comp or Nbf: an int or a (finite) float. *)
Inductive num := NInt (k : Z) | NFloat (r : R).
Definition nval (c : num) : R := match c with NInt k => IZR k | NFloat r => r end.

(** np.repeat(l, c): a float count cannot be cast to an integer, whatever l. *)
Definition repeat_num {A} (l : list A) (c : num) : res (list A) :=
  match c with NInt k => repeat_np l k | NFloat _ => Raise TypeError end.
(** int(np.ceil(n / c)) and np.random.rand of it; n / 0 raises for both types. *)
Definition blocks (rand : Z -> list R) (n : Z) (c : num) : res (list R) :=
  if Req_EM_T (nval c) 0 then Raise ZeroDivisionError else draw rand (Zceil (IZR n / nval c)).

(** analytic_signals.py 27-34 and 57-63. *)
Definition keyed_num (rand : Z -> list R) (jump : R -> R) (n : Z) (c : num) (f0 : R) : res (list (option C) * list R) :=
  if Rlt_dec f0 0 then Raise TypeError
  else if Rlt_dec (1 / 2) f0 then Raise TypeError
  else
    u <- blocks rand n c ;;
    am <- repeat_num (map jump u) c ;;
    let am := prefix am n in
    '(fm, _) <- fmconst n f0 (Some 1%R) ;;
    y <- bcast omul am fm ;;
    Ok (y, am).
Definition anaask_num (rand : Z -> list R) := keyed_num rand (fun u => u).
Definition anabpsk_num (rand : Z -> list R) := keyed_num rand (fun u => 2 * IZR (ZnearestE u) - 1)%R.

(** Lines 86-91. *)
Definition anafsk_num (rand : Z -> list R) (n : Z) (c nbf : num) : res (list C * list R) :=
  u <- blocks rand n c ;;
  let b := nval nbf in
  if Req_EM_T b 0 then Raise ZeroDivisionError
  else
    let freqs := map (fun v => 1 / 4 + 1 / 4 * (IZR (Zfloor (b * v)) / b - (b - 1) / (2 * b)))%R u in
    iflaw <- repeat_num freqs c ;;
    Ok (map (fun v => cis (2 * PI * v)) (cumsum 0 iflaw), iflaw).

(** Lines 138-147. *)
Definition anaqpsk_num (rand : Z -> list R) (n : Z) (c : num) (f0 : R) : res (list C * list R) :=
  if Rlt_dec f0 0 then Raise TypeError
  else if Rlt_dec (1 / 2) f0 then Raise TypeError
  else
    u <- blocks rand n c ;;
    let jumps := map (fun v => let j := Zfloor (4 * v) in if j =? 4 then 3 else j) u in
    rj <- repeat_num jumps c ;;
    let pm0 := map (fun j => PI * IZR j / 2)%R rj in
    pm <- bcast (fun k p => 2 * PI * f0 * (IZR k - 1) + p)%R (arange 0 n) pm0 ;;
    Ok (map cis pm, pm0).

(** frequency_modulated/fmodany.py: the laws of fmlin(n) and fmsin(m) (default
    band 0.05 to 0.45) one after the other.  [None]: the law is NaN. *)
Definition doc_fmodany (n m : Z) : res (option (list R * list C)) :=
  '(_, l1) <- fmlin n 0 (1 / 2) None ;;
  o <- fmsin m (5 / 100) (45 / 100) None None None 1%R ;;
  match o with
  | None => Ok None
  | Some (_, l2) => s <- fmodany None (l1 ++ l2) 1 ;; Ok (Some (l1 ++ l2, s))
  end.

(** frequency_modulated/{fmconst,fmlin}.py: amgauss(n, c, s) * fmconst(n, f, c)[0] and
    amgauss(n, c, s) * fmlin(n, f1, f2, c)[0], c an integer. *)
Definition doc_fmconst (n c : Z) (s f : R) : res (option (list C)) :=
  a <- amgauss n (Some (IZR c)) (Some s) ;;
  '(y, _) <- fmconst n f (Some (IZR c)) ;;
  Ok (match all_some y with Some y => modulated y a | None => None end).
Definition doc_fmlin (n c : Z) (s f1 f2 : R) : res (option (list C)) :=
  a <- amgauss n (Some (IZR c)) (Some s) ;;
  '(y, _) <- fmlin n f1 f2 (Some (IZR c)) ;;
  Ok (modulated y a).

(** freq_domain/inst_freq.py: fmsin(n, fmin, fmax, period)[0] and its inst_freq. *)
Definition doc_inst_freq ang (n : Z) (fmin fmax period : R) : res (option (list R * list R * list Z)) :=
  o <- fmsin n fmin fmax (Some period) None None 1%R ;;
  match o with
  | None => Ok None
  | Some (x, law) => '(f, t) <- inst_freq ang x None ;; Ok (Some (law, f, t))
  end.

(** noise/dopnoise.py: inst_freq(z, np.arange(a, b), L); lines 65-77 of freq_domain.py
    read x and t only, so L changes nothing. *)
Definition doc_dopnoise ang (rand : Z -> list R) (n : Z) (sf ft dist v tc c : R) (a b : Z) (L : R) : res (option (list R * list Z)) :=
  '(z, _) <- dopnoise rand n sf ft dist v (Some tc) c ;;
  match z with
  | None => Ok None
  | Some z => r <- inst_freq ang z (Some (arange a b)) ;; Ok (Some r)
  end.

(** processing/stft.py: two tones of n samples one after the other. *)
Definition doc_stft (n : Z) (f1 f2 : R) : res (option (rep C)) :=
  '(y1, _) <- fmconst n f1 None ;;
  '(y2, _) <- fmconst n f2 None ;;
  match all_some y1, all_some y2 with
  | Some y1, Some y2 => o <- stft (y1 ++ y2) None None None ;; Ok (Some o)
  | _, _ => Ok None
  end.
