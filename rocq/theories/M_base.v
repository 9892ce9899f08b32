(** Model of tftb/processing/base.py: construction of a representation. *)
From Coq Require Import Reals ZArith List Lia Lra Bool.
From Coquelicot Require Import Coquelicot.
From Verif Require Import Py Scalars CSum DFT.
Import ListNotations.
Local Open Scope Z_scope.

(** scipy.signal.windows.hamming(m) (symmetric): ones for m <= 1, otherwise
    0.54 + 0.46 cos(t) on linspace(-pi, pi, m). *)
Definition hamming (m : Z) : list R :=
  if m <=? 1 then repeat 1%R (Z.to_nat m)
  else map (fun k => (0.54 + 0.46 * cos (- PI + 2 * PI * IZR k / IZR (m - 1)))%R) (arange 0 m).

(** base.py 69-70: length of the default window. *)
Definition default_winlen (n : Z) : Z := let h := n / 4 in h + (1 - h mod 2).

(** base.py 60-71 [_make_window]. *)
Definition make_window (n : Z) : list R := hamming (default_winlen n).

(** base.py 43-49: the [freqs] attribute. *)
Definition base_freqs (n : Z) : list R :=
  let ks := if n mod 2 =? 0
            then arange 0 (n / 2) ++ arange (- (n / 2)) 0
            else arange 0 ((n - 1) / 2) ++ arange (- ((n - 1) / 2)) 0 in
  map (fun k => (IZR k / IZR n)%R) ks.

(** base.py 50: [np.zeros((n_fbins, len(ts)), dtype=complex)], as a list of columns. *)
Definition zeros2 {T} `{Num T} (n t : Z) : list (list T) := repeat (zeros n) (Z.to_nat t).

(** A timestamp array: integer or floating-point dtype. *)
Inductive tsarr := TsI (l : list Z) | TsF (l : list R).
Definition ts_len (t : tsarr) : Z := match t with TsI l => zlen l | TsF l => zlen l end.

(** Attributes of a representation object that [run] and [plot] read or write;
    [tfr] is a list of columns. *)
Record rep (T : Type) := mkrep {
  r_sig : list T; r_ts : tsarr; r_n : Z; r_win : list T;
  r_freqs : list R; r_tfr : list (list T);
  r_real : bool    (* dtype of the tfr array is real *) }.
Arguments mkrep {T}. Arguments r_sig {T}. Arguments r_ts {T}. Arguments r_n {T}.
Arguments r_win {T}. Arguments r_freqs {T}. Arguments r_tfr {T}. Arguments r_real {T}.

(** base.py 22-50 [BaseTFRepresentation.__init__] for n_fbins >= 1; other numbers
    of bins raise, see M_bins. *)
Definition base_init (x : list C) (ts : option tsarr) (n : option Z) (w : option (list C)) : rep C :=
  let ts := match ts with Some t => t | None => TsI (arange 0 (zlen x)) end in
  let n := match n with Some n => n | None => zlen x end in
  let w := match w with Some w => w | None => map RtoC (make_window n) end in
  mkrep x ts n w (base_freqs n) (zeros2 n (ts_len ts)) false.

(** [for icol in range(...)]: columns with their index. *)
Definition enum {A} (l : list A) : list (Z * A) := combine (arange 0 (zlen l)) l.

Lemma enum_nth {A} (l : list A) k a :
  nth_error l k = Some a -> nth_error (enum l) k = Some (Z.of_nat k, a).
Proof.
  intros H. unfold enum.
  assert (Hk : (k < length l)%nat) by (apply nth_error_Some; congruence).
  assert (E : nth_error (arange 0 (zlen l)) k = Some (Z.of_nat k)).
  { rewrite nth_error_arange by (unfold zlen; lia). f_equal. }
  revert E H. generalize (Z.of_nat k) as z. generalize (arange 0 (zlen l)). clear. revert l.
  induction k as [|k IH]; intros [|x l] [|y m] z; cbn; try discriminate.
  - intros [= ->] [= ->]. reflexivity.
  - intros. now apply IH.
Qed.

Lemma enum_length {A} (l : list A) : length (enum l) = length l.
Proof. unfold enum. rewrite combine_length, arange_length. unfold zlen. lia. Qed.

Lemma in_enum {A} (l : list A) i a : In (i, a) (enum l) ->
  0 <= i < zlen l /\ nth_error l (Z.to_nat i) = Some a.
Proof.
  intros H. apply In_nth_error in H. destruct H as [k H].
  assert (Hk : (k < length l)%nat).
  { rewrite <- enum_length. apply nth_error_Some. congruence. }
  destruct (nth_error l k) as [b|] eqn:E; [|apply nth_error_None in E; lia].
  rewrite (enum_nth _ _ _ E) in H. injection H as <- <-. unfold zlen.
  rewrite Nat2Z.id. split; [lia|auto].
Qed.

Lemma zeros2_enum n t : enum (zeros2 (T:=C) n t) = map (fun i => (i, zeros n)) (arange 0 t).
Proof.
  apply list_nth_ext. intros k. unfold zeros2.
  destruct (Nat.lt_ge_cases k (Z.to_nat t)) as [H|H].
  - rewrite (enum_nth _ k (zeros n)).
    + rewrite nth_error_map, nth_error_arange by lia. reflexivity.
    + now rewrite nth_error_repeat.
  - rewrite !(proj2 (nth_error_None _ _)); auto.
    + rewrite map_length, arange_length. lia.
    + rewrite enum_length, repeat_length. auto.
Qed.

(** Entry in row [f], column [c] of a matrix held as a list of columns. *)
Definition at2 (tfr : list (list C)) (f c : Z) : C := cnth (nth (Z.to_nat c) tfr []) f.

Lemma at2_map (F : Z -> list C) t f c :
  0 <= c < t -> at2 (map F (arange 0 t)) f c = cnth (F c) f.
Proof. intros H. unfold at2. rewrite nth_map_arange by lia. now rewrite Z.add_0_l. Qed.
