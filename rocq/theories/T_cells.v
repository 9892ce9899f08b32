(** C118: how few cells a representation can occupy. *)
From Coq Require Import Reals ZArith List Lia Lra Bool.
From Coquelicot Require Import Coquelicot.
From Verif Require Import Py Scalars CSum DFT Spec M_base M_stft M_cohen M_putils P_base P_stft P_wvd T_stft T_wvd T_putils T_gen1 T_bound.
Import ListNotations.
Local Open Scope Z_scope.

(** Number of the indices in [l] at which [F] is not zero. *)
Definition nonzero {A} (l : list A) (F : A -> C) : Z := zlen (filter (fun a => if Ceq_dec (F a) (RtoC 0) then false else true) l).

Lemma nonzero_bound {A} (l : list A) F B : (forall a, In a l -> (Cmod (F a) ^ 2 <= B)%R) -> (rsum l (fun a => Cmod (F a) ^ 2) <= IZR (nonzero l F) * B)%R.
Proof.
  intros H. unfold nonzero. set (p := fun a => if Ceq_dec (F a) (RtoC 0) then false else true).
  apply Rle_trans with (rsum (filter p l) (fun _ => B)).
  - rewrite rsum_filter. apply rsum_le. intros a Ha. unfold p. destruct (Ceq_dec (F a) (RtoC 0)) as [E|E]; [rewrite E, Cmod_0; replace (0 ^ 2)%R with 0%R by ring; apply Rle_refl|auto].
  - rewrite rsum_const, INR_IZR_INZ. apply Rle_refl.
Qed.
(** Cauchy-Schwarz on the support. *)
Lemma support_cauchy {A} (l : list A) (F G : A -> C) : (forall a, In a l -> Cmod (G a) = 1%R) ->
  (Cmod (csum l (fun a => F a * G a)%C) ^ 2 <= IZR (nonzero l F) * rsum l (fun a => Cmod (F a) ^ 2))%R.
Proof.
  intros HG. set (p := fun a => if Ceq_dec (F a) (RtoC 0) then false else true).
  assert (E : csum l (fun a => F a * G a)%C = csum (filter p l) (fun a => G a * F a)%C).
  { rewrite csum_filter. apply csum_ext. intros a _. unfold p. destruct (Ceq_dec (F a) (RtoC 0)) as [Q|Q]; [rewrite Q; ring|ring]. }
  rewrite E. eapply Rle_trans; [apply csum_cauchy|]. apply Rmult_le_compat; try (apply rsum_nonneg; intros; apply pow2_ge_0).
  - rewrite (rsum_ext _ _ (fun _ => 1%R)) by (intros a Ha; apply filter_In in Ha; rewrite HG by tauto; ring). rewrite rsum_const, INR_IZR_INZ. unfold nonzero, zlen. fold p. lra.
  - rewrite rsum_filter. apply rsum_le. intros a _. destruct (p a); [apply Rle_refl|apply pow2_ge_0].
Qed.
(** Wigner-Ville: at least n/2 non-zero cells, whatever the signal. *)
Lemma inner_self p x : inner_par p x x = RtoC (rsum (arange 0 (zlen x)) (fun a => if Bool.eqb (Z.even a) p then Cmod (cnth x a) ^ 2 else 0)%R).
Proof. unfold inner_par. rewrite RtoC_rsum. apply csum_ext. intros a _. destruct (Bool.eqb _ _); [now rewrite Cmod2_conj|reflexivity]. Qed.
Lemma rsum_prod {A B} (l : list A) (m : list B) (F : A * B -> R) : rsum (list_prod l m) F = rsum l (fun a => rsum m (fun b => F (a, b))).
Proof.
  induction l as [|a l IH]; [reflexivity|]. cbn [list_prod]. rewrite rsum_app, rsum_cons, IH, (rsum_map (fun y => (a, y))). reflexivity.
Qed.
Lemma c118_wvd : forall x ts n o, 2 <= n -> wvd x (Some ts) (Some n) = Ok o -> energy x <> 0%R ->
  n <= 2 * nonzero (list_prod (arange 0 (zlen x)) (arange 0 n)) (fun p => at2 (r_tfr o) (snd p) (fst p)).
Proof.
  intros x ts n o Hn H HE. set (F := fun p : Z * Z => at2 (r_tfr o) (snd p) (fst p)). set (L := list_prod (arange 0 (zlen x)) (arange 0 n)).
  assert (E0 : (0 < energy x)%R) by (assert (Q := energy_nonneg x); lra).
  assert (B := nonzero_bound L F (energy x ^ 2)). assert (M := c26_wvd_moyal x x ts ts n o o Hn eq_refl H H).
  assert (S : rsum L (fun p => Cmod (F p) ^ 2)%R = (IZR n * (Cmod (inner_par true x x) ^ 2 + Cmod (inner_par false x x) ^ 2))%R).
  { apply RtoC_inj. rewrite <- M. unfold L. rewrite rsum_prod, RtoC_rsum. apply csum_ext. intros t _. rewrite RtoC_rsum. apply csum_ext. intros f _. unfold F. cbn [fst snd]. now rewrite Cmod2_conj. }
  rewrite S in B. rewrite !inner_self, !Cmod_R in B. set (e := rsum _ _) in B. set (od := rsum (arange 0 (zlen x)) (fun a => if Bool.eqb (Z.even a) false then _ else _)) in B.
  assert (SUM : (e + od = energy x)%R). { unfold e, od. rewrite <- rsum_plus, energy_sigf. apply rsum_ext. intros a Ha. apply in_arange in Ha. rewrite sigf_in by lia. destruct (Z.even a); cbn [Bool.eqb]; ring. }
  rewrite <- !Rsqr_pow2, <- !Rsqr_abs, !Rsqr_pow2 in B.
  assert (B' : (IZR n * (e ^ 2 + od ^ 2) <= IZR (nonzero L F) * energy x ^ 2)%R).
  { apply B. intros [t f] I. unfold L in I. apply in_prod_iff in I as [I1 I2]. apply in_arange in I1, I2. unfold F. cbn [fst snd]. apply pow_incr. split; [apply Cmod_ge_0|]. apply (c117_wvd x ts n o f t); auto. }
  apply le_IZR. rewrite mult_IZR. assert (N0 : (0 < IZR n)%R) by (apply IZR_lt; lia). set (c := IZR (nonzero L F)) in *.
  assert (Q : (energy x ^ 2 <= 2 * (e ^ 2 + od ^ 2))%R) by (rewrite <- SUM; assert (0 <= (e - od) ^ 2)%R by apply pow2_ge_0; nra).
  apply (Rmult_le_reg_r (energy x ^ 2)); [apply pow_lt; auto|]. nra.
Qed.
(** One column of the short-time Fourier transform: the number of non-zero rows times the number of
    non-zero samples under the window is at least n. *)
Lemma c118_stft : forall x ts n w o c, 1 <= n -> 2 * ((zlen w - 1) / 2) < n -> stft x (Some ts) (Some n) (Some w) = Ok o -> 0 <= c < ts_len ts ->
  (exists f, 0 <= f < n /\ at2 (r_tfr o) f c <> RtoC 0) ->
  n <= nonzero (arange 0 n) (fun f => at2 (r_tfr o) f c) * nonzero (arange 0 (zlen x)) (fun k => sigf x k * Cconj (winf w (k - (c - 1))))%C.
Proof.
  intros x ts n w o c Hn Hw H Hc (f0 & Hf0 & NZ).
  assert (P : rsum (arange 0 n) (fun f => Cmod (at2 (r_tfr o) f c) ^ 2)%R = (IZR n * rsum (arange 0 (zlen x)) (fun k => Cmod (sigf x k * Cconj (winf w (k - (c - 1))))%C ^ 2))%R).
  { destruct (c12_stft_parseval x ts n w c Hn Hw Hc) as (o' & H' & E). assert (o' = o) by congruence. subst o'. rewrite E. f_equal. apply rsum_ext. intros k Hk. apply in_arange in Hk. rewrite sigf_in, Cmod_mult, Cmod_conj by lia. ring. }
  set (F := fun k => (sigf x k * Cconj (winf w (k - (c - 1))))%C) in *. set (E := rsum (arange 0 (zlen x)) (fun k => Cmod (F k) ^ 2)%R) in *.
  change (rsum (arange 0 n) (fun f => Cmod (at2 (r_tfr o) f c) ^ 2)%R = (IZR n * E)%R) in P.
  assert (B : forall f, In f (arange 0 n) -> (Cmod (at2 (r_tfr o) f c) ^ 2 <= IZR (nonzero (arange 0 (zlen x)) F) * E)%R).
  { intros f Hf. apply in_arange in Hf. destruct (c11_stft_closed_form x ts n w f c Hn Hw ltac:(lia) Hc) as (o' & H' & Q). assert (o' = o) by congruence. subst o'. rewrite Q. unfold STFT.
    apply (support_cauchy (arange 0 (zlen x)) F (fun k => root n (- (f * (k - (c - 1)))))). intros. apply Cmod_root. }
  assert (E0 : (0 < E)%R).
  { assert (G := B f0 ltac:(apply in_arange; lia)). assert (E1 : (0 <= E)%R) by (apply rsum_nonneg; intros; apply pow2_ge_0). destruct (Rle_lt_or_eq_dec _ _ E1) as [|Q]; auto. rewrite <- Q, Rmult_0_r in G.
    exfalso. apply NZ. apply Cmod_eq_0. assert (A := Cmod_ge_0 (at2 (r_tfr o) f0 c)). nra. }
  assert (G := nonzero_bound (arange 0 n) (fun f => at2 (r_tfr o) f c) _ B). cbv beta in G. rewrite P in G. apply le_IZR. rewrite mult_IZR. apply (Rmult_le_reg_r E); auto. lra.
Qed.
Lemma rlist_as_map (l : list R) : l = map (rnth l) (arange 0 (zlen l)).
Proof.
  apply (nth_ext _ _ 0%R 0%R).
  - rewrite map_length. assert (Q := arange_zlen 0 (zlen l)). unfold zlen in *. lia.
  - intros k Hk. change (nth k (map (rnth l) (arange 0 (zlen l))) 0%R) with (nth k (map (rnth l) (arange 0 (zlen l))) 0%R). rewrite <- (Nat2Z.id k) at 2. change (nth (Z.to_nat (Z.of_nat k)) (map (rnth l) (arange 0 (zlen l))) 0%R) with (rnth (map (rnth l) (arange 0 (zlen l))) (Z.of_nat k)).
    rewrite rnth_map_arange by (unfold zlen; lia). rewrite Z.add_0_l. unfold rnth. now rewrite Nat2Z.id.
Qed.
(** The power spectrum: non-zero samples times non-zero bins is at least the length. *)
Lemma c118_spectrum : forall x, energy x <> 0%R ->
  zlen x <= nonzero (arange 0 (zlen x)) (cnth x) * nonzero (arange 0 (zlen x)) (fun k => RtoC (rnth (get_spectrum x) k)).
Proof.
  intros x HE. destruct (c75_spectrum_total x) as (L & S & V). assert (E0 : (0 < energy x)%R) by (assert (Q := energy_nonneg x); lra).
  set (N := zlen x) in *. assert (N0 : 0 < N). { assert (0 <= N) by apply zlen_nonneg. destruct (Z.eq_dec N 0) as [Z|]; [|lia]. exfalso. apply HE. unfold N in Z. destruct x; [reflexivity|unfold zlen in Z; cbn [length] in Z; lia]. }
  set (G := fun k => cnth (fft x) ((k - N / 2) mod N)).
  assert (EQ : nonzero (arange 0 N) (fun k => RtoC (rnth (get_spectrum x) k)) = nonzero (arange 0 N) G).
  { unfold nonzero. f_equal. apply filter_ext_in. intros k Hk. apply in_arange in Hk. rewrite V by lia. fold N. fold (G k). destruct (Ceq_dec (G k) (RtoC 0)) as [Q|Q], (Ceq_dec (RtoC (Cmod (G k) ^ 2)) (RtoC 0)) as [Q2|Q2]; auto.
    - exfalso. apply Q2. rewrite Q, Cmod_0. f_equal. ring.
    - exfalso. apply Q. apply Cmod_eq_0. apply RtoC_inj in Q2. assert (A := Cmod_ge_0 (G k)). nra. }
  rewrite EQ. assert (EN : rsum (arange 0 N) (fun a => Cmod (cnth x a) ^ 2)%R = energy x) by (rewrite energy_sigf; apply rsum_ext; intros k Hk; apply in_arange in Hk; now rewrite sigf_in by (fold N; lia)).
  assert (B : forall k, In k (arange 0 N) -> (Cmod (G k) ^ 2 <= IZR (nonzero (arange 0 N) (cnth x)) * energy x)%R).
  { intros k _. unfold G. rewrite fft_nth by (fold N; apply Z.mod_pos_bound; lia). fold N. rewrite <- EN. apply (support_cauchy (arange 0 N) (cnth x)). intros. apply Cmod_root. }
  assert (Q := nonzero_bound (arange 0 N) G _ B).
  assert (T : rsum (arange 0 N) (fun k => Cmod (G k) ^ 2)%R = (IZR N * energy x)%R).
  { rewrite <- S. rewrite (rlist_as_map (get_spectrum x)), L. rewrite (rsum_map (rnth (get_spectrum x))). apply rsum_ext. intros k Hk. apply in_arange in Hk. rewrite V by lia. reflexivity. }
  rewrite T in Q. apply le_IZR. rewrite mult_IZR. apply (Rmult_le_reg_r (energy x)); auto. lra.
Qed.
Example c118_example : let x := [RtoC 1; RtoC 0; RtoC 1; RtoC 0] in nonzero (arange 0 (zlen x)) (cnth x) = 2 /\ 2 <= nonzero (arange 0 (zlen x)) (fun k => RtoC (rnth (get_spectrum x) k)).
Proof.
  intros x. assert (A : nonzero (arange 0 (zlen x)) (cnth x) = 2).
  { assert (NZ : RtoC 1 <> RtoC 0) by (intros Q; apply RtoC_inj in Q; lra). unfold nonzero. change (zlen x) with 4. eval_arange. cbn [filter]. change (cnth x 0) with (RtoC 1). change (cnth x 1) with (RtoC 0). change (cnth x 2) with (RtoC 1). change (cnth x 3) with (RtoC 0).
    destruct (Ceq_dec (RtoC 1) (RtoC 0)) as [Q|_]; [tauto|]. destruct (Ceq_dec (RtoC 0) (RtoC 0)) as [_|Q]; [reflexivity|tauto]. }
  split; auto. assert (E : energy x <> 0%R). { unfold energy, x. rewrite !rsum_cons, rsum_nil, Cmod_0, Cmod_1. lra. }
  assert (B := c118_spectrum x E). rewrite A in B. change (zlen x) with 4 in *. lia.
Qed.
