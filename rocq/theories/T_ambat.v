(** C148: the narrow-band ambiguity function of two atoms: the atoms at the origin, their interference away from it. *)
From Coq Require Import Reals ZArith List Lia Lra Bool.
From Coquelicot Require Import Coquelicot.
From Verif Require Import Py Scalars CSum DFT Spec M_base M_stft M_cohen M_amb P_base P_stft P_wvd P_spec P_mh T_wvd T_amb T_par T_midw.
Import ListNotations.
Local Open Scope Z_scope.

(** The ambiguity function of the atom itself: sum_p g[p] conj(g[p-s]) exp(-2 i pi nu p / n), with the lag s in
    whole samples (twice the lag of narrow_band) and the Doppler shift nu in bins of n. *)
Definition amb (g : list C) (n : Z) (nu : R) (s : Z) : C :=
  csum (arange 0 (zlen g)) (fun p => sigf g p * Cconj (sigf g (p - s)) * cis (- (2 * PI * nu * IZR p / IZR n)))%C.

Lemma amb_cross x y g c1 c2 a b f1 f2 n k tau : 0 < n -> zlen x = zlen y -> is_atom x g c1 a f1 -> is_atom y g c2 b f2 ->
  csum (arange 0 (zlen x)) (fun t => sigf x (t + tau) * Cconj (sigf y (t - tau)) * root n (- (k * t)))%C =
  (c1 * Cconj c2 * cis (2 * PI * ((f1 - f2) * IZR a + 2 * f2 * IZR tau - IZR k / IZR n * IZR (a - tau))) * amb g n (IZR k - IZR n * (f1 - f2)) (2 * tau - (a - b)))%C.
Proof.
  intros Hn L X Y. assert (N0 : IZR n <> 0%R) by (apply not_0_IZR; lia). set (F := fun t => (sigf x (t + tau) * Cconj (sigf y (t - tau)) * root n (- (k * t)))%C).
  assert (Z1 : forall t, ~ (0 <= t < zlen x) -> F t = RtoC 0).
  { intros t Ht. unfold F. destruct (Z_lt_dec (t + tau) 0) as [|A1]; [rewrite (sigf_out x) by lia; ring|]. destruct (Z_le_dec (zlen x) (t + tau)) as [|A2]; [rewrite (sigf_out x) by lia; ring|].
    rewrite (sigf_out y) by lia. rewrite Cconj_R. ring. }
  assert (Z2 : forall t, ~ (0 <= t + tau - a < zlen g) -> F t = RtoC 0).
  { intros t Ht. unfold F. rewrite X, (sigf_out g) by lia. ring. }
  assert (NG := zlen_nonneg g). assert (NX := zlen_nonneg x).
  transitivity (csum (arange (a - tau) (zlen g + (a - tau))) F).
  - set (W := arange (Z.min 0 (a - tau)) (Z.max (zlen x) (zlen g + (a - tau)))).
    rewrite <- (csum_incl (arange 0 (zlen x)) W F), <- (csum_incl (arange (a - tau) (zlen g + (a - tau))) W F); auto; try apply NoDup_arange; unfold W.
    + intros u Hu. apply in_arange in Hu. apply in_arange. lia.
    + intros u _ NU. rewrite in_arange in NU. apply Z2. lia.
    + intros u Hu. apply in_arange in Hu. apply in_arange. lia.
    + intros u _ NU. rewrite in_arange in NU. now apply Z1.
  - replace (arange (a - tau) (zlen g + (a - tau))) with (arange (0 + (a - tau)) (zlen g + (a - tau))) by (f_equal; lia). rewrite csum_arange_shift. unfold amb. rewrite <- csum_scal_l. apply csum_ext. intros p _. unfold F.
    replace (p + (a - tau) + tau) with (p + a) by lia. rewrite X, Y. replace (p + a - a) with p by lia. replace (p + (a - tau) - tau - b) with (p - (2 * tau - (a - b))) by lia. rewrite !Cconj_mult, <- cis_opp.
    set (G := sigf g p). set (G' := Cconj (sigf g (p - (2 * tau - (a - b))))). unfold root. set (q := p + (a - tau) - tau). set (w := p + (a - tau)).
    replace (c1 * G * cis (2 * PI * f1 * IZR (p + a)) * (Cconj c2 * G' * cis (- (2 * PI * f2 * IZR q))) * cis (2 * PI * IZR (- (k * w)) / IZR n))%C
      with (c1 * Cconj c2 * (G * G' * (cis (2 * PI * f1 * IZR (p + a)) * cis (- (2 * PI * f2 * IZR q)) * cis (2 * PI * IZR (- (k * w)) / IZR n))))%C by ring.
    rewrite <- !cis_plus.
    set (E1 := cis _). set (E2 := cis _). set (E3 := cis _). replace (c1 * Cconj c2 * E2 * (G * G' * E3))%C with (c1 * Cconj c2 * (G * G' * (E2 * E3)))%C by ring. do 2 f_equal. unfold E1, E2, E3. rewrite <- cis_plus. f_equal. unfold q, w.
    repeat rewrite ?opp_IZR, ?mult_IZR, ?minus_IZR, ?plus_IZR. field. auto.
Qed.
Lemma nb_af x lag n naf lag' xi r c : 1 <= n -> narrow_band x (Some lag) (Some n) = Ok (naf, lag', xi) -> 0 <= r < n -> 0 <= c < zlen lag -> at2 naf r c = AF x n (r - n / 2) (nth (Z.to_nat c) lag 0).
Proof. intros Hn H Hr Hc. destruct (c33_outcome x lag n Hn) as [[_ E]|[_ (naf' & xi' & E & _ & _ & _ & _ & V)]]; [congruence|]. assert (naf' = naf) by congruence. subst naf'. now apply V. Qed.

(** One atom: wherever it is and whatever its frequency, the modulus is that of the atom itself, centred at lag 0
    and Doppler shift 0. *)
Lemma c148_one : forall x lag n naf lag' xi g c a f r j, 1 <= n -> narrow_band x (Some lag) (Some n) = Ok (naf, lag', xi) -> 0 <= r < n -> 0 <= j < zlen lag -> is_atom x g c a f ->
  let tau := nth (Z.to_nat j) lag 0 in let k := r - n / 2 in
  at2 naf r j = (RtoC (Cmod c ^ 2) * cis (2 * PI * (2 * f * IZR tau - IZR k / IZR n * IZR (a - tau))) * amb g n (IZR k) (2 * tau))%C /\
  Cmod (at2 naf r j) = (Cmod c ^ 2 * Cmod (amb g n (IZR k) (2 * tau)))%R.
Proof.
  intros x lag n naf lag' xi g c a f r j Hn H Hr Hj X tau k.
  assert (E : at2 naf r j = (RtoC (Cmod c ^ 2) * cis (2 * PI * (2 * f * IZR tau - IZR k / IZR n * IZR (a - tau))) * amb g n (IZR k) (2 * tau))%C).
  { rewrite (nb_af x lag n naf lag' xi r j Hn H Hr Hj). unfold AF. fold tau. fold k. rewrite (amb_cross x x g c c a a f f n k tau ltac:(lia) eq_refl X X). rewrite <- Cmod2_conj.
    replace (IZR k - IZR n * (f - f))%R with (IZR k) by ring. replace (2 * tau - (a - a)) with (2 * tau) by lia. do 2 f_equal. f_equal. ring. }
  split; [exact E|]. rewrite E, !Cmod_mult, Cmod_cis, Cmod_R, Rmult_1_r, Rabs_pos_eq by apply pow2_ge_0. reflexivity.
Qed.
(** Two atoms: the two at the origin, and two interference terms at the differences of their instants and of
    their frequencies. *)
Lemma c148_two : forall x y lag n naf lag' xi g c1 c2 a b f1 f2 r j, 1 <= n -> zlen x = zlen y -> narrow_band (plus x y) (Some lag) (Some n) = Ok (naf, lag', xi) -> 0 <= r < n -> 0 <= j < zlen lag ->
  is_atom x g c1 a f1 -> is_atom y g c2 b f2 ->
  let tau := nth (Z.to_nat j) lag 0 in let k := r - n / 2 in
  at2 naf r j = ((RtoC (Cmod c1 ^ 2) * cis (2 * PI * (2 * f1 * IZR tau - IZR k / IZR n * IZR (a - tau))) + RtoC (Cmod c2 ^ 2) * cis (2 * PI * (2 * f2 * IZR tau - IZR k / IZR n * IZR (b - tau)))) * amb g n (IZR k) (2 * tau) +
    c1 * Cconj c2 * cis (2 * PI * ((f1 - f2) * IZR a + 2 * f2 * IZR tau - IZR k / IZR n * IZR (a - tau))) * amb g n (IZR k - IZR n * (f1 - f2)) (2 * tau - (a - b)) +
    c2 * Cconj c1 * cis (2 * PI * ((f2 - f1) * IZR b + 2 * f1 * IZR tau - IZR k / IZR n * IZR (b - tau))) * amb g n (IZR k + IZR n * (f1 - f2)) (2 * tau + (a - b)))%C.
Proof.
  intros x y lag n naf lag' xi g c1 c2 a b f1 f2 r j Hn L H Hr Hj X Y tau k. rewrite (nb_af _ lag n naf lag' xi r j Hn H Hr Hj). unfold AF. fold tau. fold k. rewrite plus_zlen by auto.
  rewrite (csum_ext _ _ (fun t => (sigf x (t + tau) * Cconj (sigf x (t - tau)) * root n (- (k * t)) + sigf y (t + tau) * Cconj (sigf y (t - tau)) * root n (- (k * t))) + (sigf x (t + tau) * Cconj (sigf y (t - tau)) * root n (- (k * t)) + sigf y (t + tau) * Cconj (sigf x (t - tau)) * root n (- (k * t)))))%C by (intros u _; rewrite !sigf_plus, Cconj_plus by auto; ring).
  rewrite !csum_plus. rewrite (amb_cross x x g c1 c1 a a f1 f1 n k tau ltac:(lia) eq_refl X X), (amb_cross x y g c1 c2 a b f1 f2 n k tau ltac:(lia) L X Y).
  rewrite L. rewrite (amb_cross y y g c2 c2 b b f2 f2 n k tau ltac:(lia) eq_refl Y Y), (amb_cross y x g c2 c1 b a f2 f1 n k tau ltac:(lia) (eq_sym L) Y X). rewrite <- !Cmod2_conj, !Z.sub_diag, !Z.sub_0_r.
  replace (IZR k - IZR n * (f1 - f1))%R with (IZR k) by ring. replace (IZR k - IZR n * (f2 - f2))%R with (IZR k) by ring. replace (IZR k - IZR n * (f2 - f1))%R with (IZR k + IZR n * (f1 - f2))%R by ring.
  replace (2 * tau - (b - a)) with (2 * tau + (a - b)) by lia. replace ((f1 - f1) * IZR a + 2 * f1 * IZR tau - IZR k / IZR n * IZR (a - tau))%R with (2 * f1 * IZR tau - IZR k / IZR n * IZR (a - tau))%R by ring.
  replace ((f2 - f2) * IZR b + 2 * f2 * IZR tau - IZR k / IZR n * IZR (b - tau))%R with (2 * f2 * IZR tau - IZR k / IZR n * IZR (b - tau))%R by ring. ring.
Qed.
(** The ambiguity function of the atom vanishes for lags of its length or more, is at most its energy, and equals it at the origin. *)
Lemma amb_far g n nu s : zlen g <= Z.abs s -> amb g n nu s = RtoC 0.
Proof. intros H. unfold amb. apply csum_0. intros p Hp. apply in_arange in Hp. rewrite (sigf_out g (p - s)) by lia. rewrite Cconj_R. ring. Qed.
Lemma c148_atom : forall g n nu s, 0 < n -> (zlen g <= Z.abs s -> amb g n nu s = RtoC 0) /\ (Cmod (amb g n nu s) <= energy g)%R /\ amb g n 0 0 = RtoC (energy g).
Proof.
  intros g n nu s Hn. split; [apply amb_far|]. split.
  - unfold amb. eapply Rle_trans; [apply Cmod_csum_le|]. eapply Rle_trans; [apply (rsum_le _ _ (fun p => / 2 * (Cmod (sigf g p) ^ 2) + / 2 * (Cmod (sigf g (p + - s)) ^ 2))%R)|].
    + intros p _. replace (p + - s) with (p - s) by lia. rewrite !Cmod_mult, Cmod_cis, Cmod_conj, Rmult_1_r. assert (Q := pow2_ge_0 (Cmod (sigf g p) - Cmod (sigf g (p - s)))%R). nra.
    + rewrite rsum_plus, !rsum_scal_l. assert (Q := shift_energy_le g (- s)). assert (Q0 := shift_energy_le g 0). rewrite (rsum_ext _ (fun t => Cmod (sigf g (t + 0)) ^ 2)%R (fun t => Cmod (sigf g t) ^ 2)%R) in Q0 by (intros t _; now rewrite Z.add_0_r). lra.
  - unfold amb. rewrite energy_nth, RtoC_rsum. apply csum_ext. intros p Hp. apply in_arange in Hp. rewrite Z.sub_0_r, !sigf_in by lia. rewrite Cmod2_conj. replace (- (2 * PI * 0 * IZR p / IZR n))%R with 0%R by (field; apply not_0_IZR; lia). rewrite cis_0. ring.
Qed.
(** Atoms at least twice their length apart: the four terms have no lag in common. Near lag 0 there are only the
    atoms; at lags near half the distance only the interference, which reaches |c1 c2| times the energy. *)
Lemma c148_separated : forall x y lag n naf lag' xi g c1 c2 a b f1 f2 r j, 1 <= n -> zlen x = zlen y -> narrow_band (plus x y) (Some lag) (Some n) = Ok (naf, lag', xi) -> 0 <= r < n -> 0 <= j < zlen lag ->
  is_atom x g c1 a f1 -> is_atom y g c2 b f2 -> 1 <= zlen g -> 2 * zlen g <= a - b ->
  let tau := nth (Z.to_nat j) lag 0 in let k := r - n / 2 in
  (2 * Z.abs tau <= a - b - zlen g ->
   (Cmod (at2 naf r j) <= (Cmod c1 ^ 2 + Cmod c2 ^ 2) * Cmod (amb g n (IZR k) (2 * tau)))%R) /\
  (zlen g <= 2 * tau -> Cmod (at2 naf r j) = (Cmod c1 * Cmod c2 * Cmod (amb g n (IZR k - IZR n * (f1 - f2)) (2 * tau - (a - b))))%R) /\
  (zlen g <= Z.abs (2 * tau) -> zlen g <= Z.abs (2 * tau - (a - b)) -> zlen g <= Z.abs (2 * tau + (a - b)) -> at2 naf r j = RtoC 0) /\
  (2 * tau = a - b -> (IZR k = IZR n * (f1 - f2))%R -> Cmod (at2 naf r j) = (Cmod c1 * Cmod c2 * energy g)%R).
Proof.
  intros x y lag n naf lag' xi g c1 c2 a b f1 f2 r j Hn L H Hr Hj X Y G Far tau k. assert (E := c148_two x y lag n naf lag' xi g c1 c2 a b f1 f2 r j Hn L H Hr Hj X Y). cbv zeta in E. fold tau in E. fold k in E.
  assert (P : zlen g <= 2 * tau -> Cmod (at2 naf r j) = (Cmod c1 * Cmod c2 * Cmod (amb g n (IZR k - IZR n * (f1 - f2)) (2 * tau - (a - b))))%R).
  { intros T. rewrite E. rewrite (amb_far g n (IZR k) (2 * tau)), (amb_far g n _ (2 * tau + (a - b))) by lia. rewrite !Cmult_0_r, Cplus_0_l, Cplus_0_r, !Cmod_mult, Cmod_cis, Cmod_conj. ring. }
  split; [|split; [exact P|split]].
  - intros T. rewrite E. rewrite (amb_far g n _ (2 * tau - (a - b))), (amb_far g n _ (2 * tau + (a - b))) by lia. rewrite !Cmult_0_r, !Cplus_0_r, Cmod_mult. apply Rmult_le_compat_r; [apply Cmod_ge_0|].
    eapply Rle_trans; [apply Cmod_triangle|]. rewrite !Cmod_mult, !Cmod_cis, !Cmod_R, !Rmult_1_r, !Rabs_pos_eq by apply pow2_ge_0. lra.
  - intros T1 T2 T3. rewrite E. rewrite !amb_far by auto. ring.
  - intros T K. rewrite P by lia. replace (2 * tau - (a - b)) with 0 by lia. replace (IZR k - IZR n * (f1 - f2))%R with 0%R by lra. destruct (c148_atom g n 0 0 ltac:(lia)) as (_ & _ & ->). rewrite Cmod_R, Rabs_pos_eq by apply energy_nonneg. reflexivity.
Qed.
(** Impulses 1 at sample 0 and 2 at sample 4: at lag 2 the modulus is 2 at every Doppler shift, at lag 1 it is 0. *)
Example c148_example : exists x y naf lag xi g, zlen g = 1 /\ is_atom x g (RtoC 1) 4 0 /\ is_atom y g (RtoC 2) 0 0 /\ narrow_band (plus x y) None None = Ok (naf, lag, xi) /\ lag = [-2; -1; 0; 1; 2] /\
  Cmod (at2 naf 2 4) = 2%R /\ at2 naf 2 3 = RtoC 0 /\ (Cmod (at2 naf 1 2) <= 5)%R.
Proof.
  set (g := [RtoC 1]). set (x := [RtoC 0; RtoC 0; RtoC 0; RtoC 0; RtoC 1]). set (y := [RtoC 2; RtoC 0; RtoC 0; RtoC 0; RtoC 0]).
  assert (A : forall z c a, 0 <= a < 5 -> zlen z = 5 -> (forall m, 0 <= m < 5 -> cnth z m = if m =? a then c else RtoC 0) -> is_atom z g c a 0).
  { intros z c a Ha Lz V m. replace (2 * PI * 0 * IZR m)%R with 0%R by ring. rewrite cis_0, Cmult_1_r. destruct (Z_lt_dec m 0) as [|A1]; [rewrite !sigf_out by (change (zlen g) with 1; lia); ring|]. destruct (Z_le_dec 5 m) as [|B]; [rewrite !sigf_out by (change (zlen g) with 1; lia); ring|].
    rewrite sigf_in, V by lia. destruct (Z.eqb_spec m a) as [->|N]; [rewrite Z.sub_diag; change (sigf g 0) with (RtoC 1); ring|rewrite sigf_out by (change (zlen g) with 1; lia); ring]. }
  assert (X : is_atom x g (RtoC 1) 4 0). { apply A; [lia|reflexivity|]. intros m Hm. assert (m = 0 \/ m = 1 \/ m = 2 \/ m = 3 \/ m = 4) as [-> | [-> | [-> | [-> | ->]]]] by lia; reflexivity. }
  assert (Y : is_atom y g (RtoC 2) 0 0). { apply A; [lia|reflexivity|]. intros m Hm. assert (m = 0 \/ m = 1 \/ m = 2 \/ m = 3 \/ m = 4) as [-> | [-> | [-> | [-> | ->]]]] by lia; reflexivity. }
  assert (LP : zlen (plus x y) = 5) by reflexivity.
  destruct (c33_outcome (plus x y) [-2; -1; 0; 1; 2] 5 ltac:(lia)) as [[(tau & I & Q) _]|[_ (naf & xi & H & _)]]; [rewrite LP in Q; lia|].
  exists x, y, naf, [-2; -1; 0; 1; 2], xi, g. split; [reflexivity|]. split; [exact X|]. split; [exact Y|]. split; [exact H|]. split; [reflexivity|].
  assert (EN : energy g = 1%R). { rewrite energy_nth. change (zlen g) with 1. change (arange 0 1) with [0]. rewrite rsum_cons, rsum_nil. change (cnth g 0) with (RtoC 1). rewrite Cmod_1. ring. }
  assert (ZG : zlen g = 1) by reflexivity. assert (M2 : Cmod (RtoC 2) = 2%R) by (rewrite Cmod_R; apply Rabs_pos_eq; lra).
  assert (S := fun r j Hr Hj => c148_separated x y [-2; -1; 0; 1; 2] 5 naf _ xi g (RtoC 1) (RtoC 2) 4 0 0 0 r j ltac:(lia) eq_refl H Hr Hj X Y ltac:(rewrite ZG; lia) ltac:(rewrite ZG; lia)). cbv zeta in S. rewrite Cmod_1, M2, EN, ZG in S.
  split; [|split].
  - destruct (S 2 4 ltac:(lia) ltac:(change (zlen [-2; -1; 0; 1; 2]) with 5; lia)) as (_ & _ & _ & P). rewrite P; [ring|reflexivity|]. change (2 - 5 / 2) with 0. ring.
  - destruct (S 2 3 ltac:(lia) ltac:(change (zlen [-2; -1; 0; 1; 2]) with 5; lia)) as (_ & _ & P & _). apply P; vm_compute; discriminate.
  - destruct (S 1 2 ltac:(lia) ltac:(change (zlen [-2; -1; 0; 1; 2]) with 5; lia)) as (P & _). eapply Rle_trans; [apply P; vm_compute; discriminate|].
    match goal with |- (_ * Cmod (amb g 5 ?nu ?s) <= _)%R => destruct (c148_atom g 5 nu s ltac:(lia)) as (_ & B & _) end. rewrite EN in B. nra.
Qed.
