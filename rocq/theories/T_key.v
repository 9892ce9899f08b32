(** C58: keyed signals. *)
From Coq Require Import Reals ZArith List Lia Lra Bool.
From Coquelicot Require Import Coquelicot.
From Flocq Require Import Core.
From Verif Require Import Py Scalars CSum DFT Spec M_base M_utils M_dom M_gen1 M_gen2 P_base T_putils T_dom T_gen1 T_gen2.
Import ListNotations.
Local Open Scope Z_scope.

(** np.random.rand: m numbers in [0, 1). *)
Definition uniform (rand : Z -> list R) : Prop :=
  forall m, 0 <= m -> zlen (rand m) = m /\ forall v, In v (rand m) -> (0 <= v < 1)%R.

Lemma repeat_np_ok {A} (l : list A) k : 0 <= k -> repeat_np l k = Ok (nrepeat l k).
Proof. intros H. unfold repeat_np. destruct (Z.ltb_spec k 0); [lia|reflexivity]. Qed.
Lemma nrepeat_length {A} (l : list A) k : length (nrepeat l k) = (length l * Z.to_nat k)%nat.
Proof. unfold nrepeat. induction l; [reflexivity|]. cbn [flat_map length]. rewrite app_length, repeat_length, IHl. lia. Qed.
Lemma nrepeat_zlen {A} (l : list A) k : 0 <= k -> zlen (nrepeat l k) = zlen l * k.
Proof. intros. unfold zlen. rewrite nrepeat_length. lia. Qed.
Lemma nth_repeat_lt {A} (v d : A) n k : (k < n)%nat -> nth k (repeat v n) d = v.
Proof. revert k. induction n; intros k H; [lia|]. destruct k; [reflexivity|]. cbn. apply IHn. lia. Qed.
Lemma nrepeat_nth {A} (l : list A) k i d : 0 < k -> 0 <= i < zlen l * k -> nth (Z.to_nat i) (nrepeat l k) d = nth (Z.to_nat (i / k)) l d.
Proof.
  intros Hk. unfold nrepeat. revert i. induction l as [|a l IH]; intros i Hi; [unfold zlen in Hi; cbn in Hi; lia|].
  cbn [flat_map]. unfold zlen in Hi. cbn [length] in Hi. destruct (Z_lt_ge_dec i k) as [Q|Q].
  - rewrite app_nth1 by (rewrite repeat_length; lia). rewrite Z.div_small by lia. rewrite nth_repeat_lt by lia. reflexivity.
  - rewrite app_nth2 by (rewrite repeat_length; lia). rewrite repeat_length.
    replace (Z.to_nat i - Z.to_nat k)%nat with (Z.to_nat (i - k)) by lia. rewrite IH by (unfold zlen; lia).
    assert (ED : i / k = Z.succ ((i - k) / k)) by (Z.to_euclidean_division_equations; nia).
    rewrite ED, Z2Nat.inj_succ by (apply Z.div_pos; lia). reflexivity.
Qed.
Lemma cdiv_spec n d : 0 < d -> d * (cdiv n d - 1) < n <= d * cdiv n d.
Proof. intros. unfold cdiv. Z.to_euclidean_division_equations. nia. Qed.
Lemma nth_firstn {A} (l : list A) n k d : (k < n)%nat -> nth k (firstn n l) d = nth k l d.
Proof. revert n k. induction l as [|a l IH]; intros n k H; [now rewrite firstn_nil|]. destruct n; [lia|]. destruct k; [reflexivity|]. cbn. apply IH. lia. Qed.

(** am of a keyed signal: n samples, block j holding jump(u_j). *)
Lemma keyed_am (jump : R -> R) u n nc : 0 <= n -> 0 < nc -> zlen u = cdiv n nc ->
  let am := prefix (nrepeat (map jump u) nc) n in
  zlen am = n /\ forall k, 0 <= k < n -> rnth am k = jump (rnth u (k / nc)).
Proof.
  intros Hn Hc Hu am. assert (HC := cdiv_spec n nc Hc).
  assert (LN : zlen (nrepeat (map jump u) nc) = cdiv n nc * nc) by (rewrite nrepeat_zlen, zlen_map, Hu by lia; lia).
  split.
  - unfold am, prefix, zlen in *. rewrite firstn_length. lia.
  - intros k Hk. unfold rnth, am, prefix. rewrite nth_firstn by lia. rewrite nrepeat_nth by (try lia; rewrite zlen_map, Hu; lia).
    assert (0 <= k / nc < cdiv n nc) by (split; [apply Z.div_pos; lia|apply Z.div_lt_upper_bound; lia]).
    rewrite (nth_indep _ 0%R (jump 0%R)) by (rewrite map_length; unfold zlen in Hu; lia). apply map_nth.
Qed.

(** A keyed signal of n samples with envelope [jump u_(k / nc)] and carrier f0. *)
Definition keyed_signal (n nc : Z) (f0 : R) (jump : R -> R) (u : list R) (y : list C) (am : list R) : Prop :=
  zlen y = n /\ zlen am = n /\
  forall k, 0 <= k < n ->
    rnth am k = jump (rnth u (k / nc)) /\
    cnth y k = (RtoC (rnth am k) * cis (2 * PI * f0 * (IZR k - 1)))%C /\
    Cmod (cnth y k) = Rabs (rnth am k).

Lemma zipw_omul am y : length am = length y -> zipw omul am (map Some y) = map Some (zipw (fun a z => RtoC a * z)%C am y).
Proof. revert y. induction am; intros [|z y] H; try discriminate; [reflexivity|]. cbn. f_equal. apply IHam. cbn in H. lia. Qed.
Lemma zipw_nth {A B D} (f : A -> B -> D) l m k a b d : (k < length l)%nat -> (k < length m)%nat -> nth k (zipw f l m) d = f (nth k l a) (nth k m b).
Proof. revert m k. induction l; intros [|z m] k H K; cbn in *; try lia. destruct k; [reflexivity|]. apply IHl; lia. Qed.

Lemma keyed_ok rand jump dflt n nc f0 : uniform rand -> 2 <= n -> 1 <= nc -> (0 <= f0 <= 1 / 2)%R ->
  exists y am, keyed rand jump dflt n (Some nc) f0 = Ok (map Some y, am) /\
  keyed_signal n nc f0 jump (rand (cdiv n nc)) y am.
Proof.
  intros HR Hn Hc Hf. assert (HC := cdiv_spec n nc ltac:(lia)). assert (HM : 0 <= cdiv n nc) by nia. destruct (HR _ HM) as [LU VU].
  unfold keyed. destruct (Rlt_dec f0 0); [lra|]. destruct (Rlt_dec (1 / 2) f0); [lra|]. destruct (Z.eqb_spec nc 0); [lia|].
  unfold draw. destruct (Z.ltb_spec (cdiv n nc) 0); [lia|]. cbn [bind]. rewrite repeat_np_ok by lia. cbn [bind].
  destruct (keyed_am jump (rand (cdiv n nc)) n nc) as [LA VA]; [lia|lia|auto|]. set (am := prefix _ n) in *.
  destruct (c54_tone n f0 1) as (z & EZ & LZ & VZ & _); [lia|rewrite Rabs_right; lra|]. change 1%R with (IZR 1). rewrite EZ. cbn [bind].
  assert (LL : length am = length z) by (unfold zlen in *; lia).
  unfold bcast. rewrite map_length, (proj2 (Nat.eqb_eq _ _) LL). cbn [bind]. rewrite zipw_omul by auto.
  exists (zipw (fun a v => RtoC a * v)%C am z), am. split; [reflexivity|]. split; [|split; [auto|]].
  - rewrite zipw_zlen; lia.
  - intros k Hk. split; [auto|].
    assert (EY : cnth (zipw (fun a v => RtoC a * v)%C am z) k = (RtoC (rnth am k) * cis (2 * PI * f0 * (IZR k - 1)))%C).
    { unfold cnth. rewrite (zipw_nth _ am z _ 0%R (RtoC 0)) by (unfold zlen in *; lia). fold (cnth z k) (rnth am k). rewrite VZ by auto. now rewrite minus_IZR. }
    split; [exact EY|]. rewrite EY, Cmod_mult, Cmod_cis, Cmod_R. ring.
Qed.
Lemma c58_anaask : forall rand n nc f0, uniform rand -> 2 <= n -> 1 <= nc -> (0 <= f0 <= 1 / 2)%R ->
  exists y am, anaask rand n (Some nc) f0 = Ok (map Some y, am) /\
  keyed_signal n nc f0 (fun u => u) (rand (cdiv n nc)) y am /\
  (forall k, 0 <= k < n -> (0 <= rnth am k < 1)%R) /\
  (forall j k, 0 <= j < n -> 0 <= k < n -> j / nc = k / nc -> rnth am j = rnth am k).
Proof.
  intros rand n nc f0 HR Hn Hc Hf. destruct (keyed_ok rand (fun u => u) 2 n nc f0) as (y & am & E & S); auto. exists y, am. split; [exact E|]. split; [exact S|].
  destruct S as (_ & _ & S). assert (HC := cdiv_spec n nc ltac:(lia)). assert (HM : 0 <= cdiv n nc) by nia. destruct (HR _ HM) as [LU VU]. split.
  - intros k Hk. destruct (S k Hk) as [-> _]. apply VU, nth_In.
    assert (0 <= k / nc < cdiv n nc) by (split; [apply Z.div_pos; lia|apply Z.div_lt_upper_bound; lia]). unfold zlen in LU. lia.
  - intros j k Hj Hk Q. destruct (S j Hj) as [-> _]. destruct (S k Hk) as [-> _]. now rewrite Q.
Qed.
(** np.round of a number in [0, 1): 0 up to and including 1/2, else 1. *)
Lemma round01 u : (0 <= u < 1)%R -> ZnearestE u = if Rle_dec u (1 / 2) then 0 else 1.
Proof.
  intros H. destruct (Rle_dec u (1 / 2)) as [Q|Q].
  - destruct (Req_dec u (1 / 2)) as [->|N].
    + apply (znear_half 1).
    + apply Znearest_imp. rewrite Rabs_right; cbn; lra.
  - apply Znearest_imp. cbn. apply Rabs_def1; lra.
Qed.
Lemma c58_anabpsk : forall rand n nc f0, uniform rand -> 2 <= n -> 1 <= nc -> (0 <= f0 <= 1 / 2)%R ->
  exists y am, anabpsk rand n (Some nc) f0 = Ok (map Some y, am) /\
  keyed_signal n nc f0 (fun u => if Rle_dec u (1 / 2) then (-1)%R else 1%R) (rand (cdiv n nc)) y am /\
  (forall k, 0 <= k < n -> rnth am k = 1%R \/ rnth am k = (-1)%R) /\
  (forall k, 0 <= k < n -> Cmod (cnth y k) = 1%R) /\
  (forall j k, 0 <= j < n -> 0 <= k < n -> j / nc = k / nc -> rnth am j = rnth am k).
Proof.
  intros rand n nc f0 HR Hn Hc Hf. destruct (keyed_ok rand (fun u => 2 * IZR (ZnearestE u) - 1)%R 5 n nc f0) as (y & am & E & S); auto. exists y, am. split; [exact E|].
  assert (HC := cdiv_spec n nc ltac:(lia)). assert (HM : 0 <= cdiv n nc) by nia. destruct (HR _ HM) as [LU VU].
  assert (S' : keyed_signal n nc f0 (fun u => if Rle_dec u (1 / 2) then (-1)%R else 1%R) (rand (cdiv n nc)) y am).
  { destruct S as (L1 & L2 & S). split; [auto|]. split; [auto|]. intros k Hk. destruct (S k Hk) as (A & B & D). split; [|auto]. rewrite A, round01.
    - destruct (Rle_dec _ _); lra.
    - apply VU, nth_In. assert (0 <= k / nc < cdiv n nc) by (split; [apply Z.div_pos; lia|apply Z.div_lt_upper_bound; lia]). unfold zlen in LU. lia. }
  split; [exact S'|]. destruct S' as (_ & _ & S').
  assert (AL : forall k, 0 <= k < n -> rnth am k = 1%R \/ rnth am k = (-1)%R).
  { intros k Hk. destruct (S' k Hk) as [-> _]. destruct (Rle_dec _ _); auto. }
  split; [exact AL|]. split.
  - intros k Hk. destruct (S' k Hk) as (_ & _ & ->). destruct (AL k Hk) as [-> | ->]; [apply Rabs_R1|]. rewrite Rabs_left1; lra.
  - intros j k Hj Hk Q. destruct (S' j Hj) as [-> _]. destruct (S' k Hk) as [-> _]. now rewrite Q.
Qed.
(** Failures of ASK and BPSK. *)
Lemma keyed_raises rand jump dflt n nc f0 : uniform rand -> 1 <= nc ->
  ((f0 < 0 \/ 1 / 2 < f0)%R -> keyed rand jump dflt n (Some nc) f0 = Raise TypeError) /\
  ((0 <= f0 <= 1 / 2)%R -> n <= - nc -> keyed rand jump dflt n (Some nc) f0 = Raise ValueError) /\
  ((0 <= f0 <= 1 / 2)%R -> - nc < n <= 0 -> keyed rand jump dflt n (Some nc) f0 = Raise TypeError) /\
  ((0 <= f0 <= 1 / 2)%R -> n = 1 -> keyed rand jump dflt n (Some nc) f0 = Raise IndexError).
Proof.
  intros HR Hc. assert (HC := cdiv_spec n nc ltac:(lia)). unfold keyed. split; [|split; [|split]].
  - intros H. destruct (Rlt_dec f0 0); [auto|]. destruct (Rlt_dec (1 / 2) f0); [auto|]. lra.
  - intros H Hn. destruct (Rlt_dec f0 0); [lra|]. destruct (Rlt_dec (1 / 2) f0); [lra|]. destruct (Z.eqb_spec nc 0); [lia|].
    unfold draw. destruct (Z.ltb_spec (cdiv n nc) 0); [reflexivity|]. nia.
  - intros H Hn. destruct (Rlt_dec f0 0); [lra|]. destruct (Rlt_dec (1 / 2) f0); [lra|]. destruct (Z.eqb_spec nc 0); [lia|].
    unfold draw. destruct (Z.ltb_spec (cdiv n nc) 0); [nia|]. cbn [bind]. rewrite repeat_np_ok by lia. cbn [bind]. rewrite (proj1 (c54_raises n f0 (Some 1%R))) by lia. reflexivity.
  - intros H ->. destruct (Rlt_dec f0 0); [lra|]. destruct (Rlt_dec (1 / 2) f0); [lra|]. destruct (Z.eqb_spec nc 0); [lia|].
    unfold draw. destruct (Z.ltb_spec (cdiv 1 nc) 0); [nia|]. cbn [bind]. rewrite repeat_np_ok by lia. cbn [bind].
    rewrite (proj1 (proj2 (proj2 (c54_raises 1 f0 (Some 1%R))))); [reflexivity|lia|rewrite Rabs_right; lra|]. cbn [centre_of]. rewrite (trunc_IZR 1). lia.
Qed.
Lemma c58_raises : forall rand n nc f0, uniform rand -> 1 <= nc ->
  ((f0 < 0 \/ 1 / 2 < f0)%R -> anaask rand n (Some nc) f0 = Raise TypeError /\ anabpsk rand n (Some nc) f0 = Raise TypeError) /\
  ((0 <= f0 <= 1 / 2)%R -> n <= 0 -> anaask rand n (Some nc) f0 = Raise (if n <=? - nc then ValueError else TypeError) /\ anabpsk rand n (Some nc) f0 = Raise (if n <=? - nc then ValueError else TypeError)) /\
  ((0 <= f0 <= 1 / 2)%R -> n = 1 -> anaask rand n (Some nc) f0 = Raise IndexError /\ anabpsk rand n (Some nc) f0 = Raise IndexError).
Proof.
  intros rand n nc f0 HR Hc. unfold anaask, anabpsk. destruct (keyed_raises rand (fun u => u) 2 n nc f0 HR Hc) as (A1 & A2 & A3 & A4).
  destruct (keyed_raises rand (fun u => 2 * IZR (ZnearestE u) - 1)%R 5 n nc f0 HR Hc) as (B1 & B2 & B3 & B4).
  split; [auto|]. split; [|auto]. intros H Hn. destruct (Z.leb_spec n (- nc)); split; auto.
Qed.
Lemma znear_tie x : Rabs (IZR (ZnearestE x) - x) = (/ 2)%R -> Z.even (ZnearestE x) = true.
Proof.
  intros H. unfold Znearest in *. assert (F1 := Zfloor_lb x). assert (F2 := Zfloor_ub x). assert (F3 := Zceil_lb x). assert (F4 := Zceil_ub x).
  destruct (Rcompare_spec (x - IZR (Zfloor x)) (/ 2)) as [Q|Q|Q].
  - rewrite Rabs_left1 in H; lra.
  - rewrite Zceil_floor_neq by lra. destruct (Z.even (Zfloor x)) eqn:E; cbn [negb]; [auto|]. rewrite Z.even_add, E. reflexivity.
  - rewrite Zceil_floor_neq, plus_IZR in H by lra. rewrite Rabs_right in H; lra.
Qed.
(** Default block length: round(n / 2) for ASK, round(n / 5) for BPSK. *)
Definition nearest_even (x : R) (k : Z) : Prop := (Rabs (IZR k - x) < 1 / 2)%R \/ (Rabs (IZR k - x) = 1 / 2)%R /\ Z.even k = true.
Lemma near_even x : nearest_even x (ZnearestE x).
Proof.
  unfold nearest_even. assert (P := Znearest_half (fun k => negb (Z.even k)) x). rewrite Rabs_minus_sym in P. destruct P as [P|P]; [left; lra|]. right. split; [lra|].
  now apply znear_tie.
Qed.
Lemma c58_defaults : forall rand n f0,
  (exists nc, nearest_even (IZR n / 2) nc /\ anaask rand n None f0 = anaask rand n (Some nc) f0) /\
  (exists nc, nearest_even (IZR n / 5) nc /\ anabpsk rand n None f0 = anabpsk rand n (Some nc) f0) /\
  ((0 <= f0 <= 1 / 2)%R -> anaask rand n (Some 0) f0 = Raise ZeroDivisionError /\ anabpsk rand n (Some 0) f0 = Raise ZeroDivisionError).
Proof.
  intros rand n f0.
  split; [|split].
  - exists (ZnearestE (IZR n / 2)). split; [apply near_even|reflexivity].
  - exists (ZnearestE (IZR n / 5)). split; [apply near_even|reflexivity].
  - intros H. unfold anaask, anabpsk, keyed. destruct (Rlt_dec f0 0); [lra|]. destruct (Rlt_dec (1 / 2) f0); [lra|]. auto.
Qed.

(** FSK: ceil(n / nc) * nc samples, nbf equally spaced frequencies inside
    (1/8, 3/8), constant on blocks, continuous phase. *)
Lemma cumsum_rnth a l k : 0 <= k < zlen l -> rnth (cumsum a l) k = ((if Z.eq_dec k 0 then a else rnth (cumsum a l) (k - 1)) + rnth l k)%R.
Proof.
  intros H. unfold rnth. rewrite cumsum_nth by (unfold zlen in H; lia). destruct (Z.eq_dec k 0) as [->|N]; [reflexivity|].
  replace (Z.to_nat k) with (S (Z.to_nat (k - 1))) at 1 by lia. reflexivity.
Qed.
Lemma c58_anafsk : forall rand n nc nbf, uniform rand -> 0 <= n -> 1 <= nc -> 1 <= nbf ->
  exists y law, anafsk rand n (Some nc) nbf = Ok (y, law) /\
  zlen y = cdiv n nc * nc /\ zlen law = cdiv n nc * nc /\
  (forall k, 0 <= k < cdiv n nc * nc ->
     (exists j, 0 <= j < nbf /\ (IZR j <= IZR nbf * rnth (rand (cdiv n nc)) (k / nc) < IZR j + 1)%R /\
        rnth law k = (1 / 4 + (2 * IZR j + 1 - IZR nbf) / (8 * IZR nbf))%R) /\
     (1 / 8 < rnth law k < 3 / 8)%R /\
     Cmod (cnth y k) = 1%R /\
     cnth y k = ((if Z.eq_dec k 0 then RtoC 1 else cnth y (k - 1)) * cis (2 * PI * rnth law k))%C) /\
  (forall j k, 0 <= j < cdiv n nc * nc -> 0 <= k < cdiv n nc * nc -> j / nc = k / nc -> rnth law j = rnth law k).
Proof.
  intros rand n nc nbf HR Hn Hc Hb. assert (HC := cdiv_spec n nc ltac:(lia)). assert (HM : 0 <= cdiv n nc) by nia. destruct (HR _ HM) as [LU VU].
  unfold anafsk. destruct (Z.eqb_spec nc 0); [lia|]. unfold draw. destruct (Z.ltb_spec (cdiv n nc) 0); [lia|]. cbn [bind]. destruct (Z.eqb_spec nbf 0); [lia|]. rewrite repeat_np_ok by lia. cbn [bind].
  set (u := rand (cdiv n nc)) in *. set (fr := fun v => (1 / 4 + 1 / 4 * (IZR (Zfloor (IZR nbf * v)) / IZR nbf - (IZR nbf - 1) / (2 * IZR nbf)))%R).
  set (law := nrepeat (map fr u) nc).
  assert (LL : zlen law = cdiv n nc * nc) by (unfold law; rewrite nrepeat_zlen, zlen_map, LU by lia; lia).
  assert (IDX : forall k, 0 <= k < cdiv n nc * nc -> 0 <= k / nc < cdiv n nc) by (intros k Hk; split; [apply Z.div_pos; lia|apply Z.div_lt_upper_bound; lia]).
  assert (VL : forall k, 0 <= k < cdiv n nc * nc -> rnth law k = fr (rnth u (k / nc))).
  { intros k Hk. unfold rnth, law. rewrite nrepeat_nth by (try lia; rewrite zlen_map, LU; lia). specialize (IDX k Hk).
    rewrite (nth_indep _ 0%R (fr 0%R)) by (rewrite map_length; unfold zlen in LU; lia). apply map_nth. }
  assert (LY : zlen (map (fun v => cis (2 * PI * v)) (cumsum 0 law)) = zlen law) by (rewrite zlen_map; unfold zlen; now rewrite cumsum_length).
  assert (VY : forall k, 0 <= k < zlen law -> cnth (map (fun v => cis (2 * PI * v)) (cumsum 0 law)) k = cis (2 * PI * rnth (cumsum 0 law) k)).
  { intros k Hk. unfold cnth. rewrite (nth_indep _ (RtoC 0) (cis (2 * PI * 0))) by (rewrite map_length, cumsum_length; unfold zlen in Hk; lia).
    exact (map_nth (fun v => cis (2 * PI * v)) (cumsum 0 law) 0%R (Z.to_nat k)). }
  exists (map (fun v => cis (2 * PI * v)) (cumsum 0 law)), law. split; [reflexivity|]. split; [lia|]. split; [lia|]. assert (HB : (1 <= IZR nbf)%R) by (apply IZR_le; lia). split.
  - intros k Hk. assert (Hu : (0 <= rnth u (k / nc) < 1)%R) by (apply VU, nth_In; specialize (IDX k Hk); unfold zlen in LU; lia).
    set (j := Zfloor (IZR nbf * rnth u (k / nc))). assert (J1 := Zfloor_lb (IZR nbf * rnth u (k / nc))). assert (J2 := Zfloor_ub (IZR nbf * rnth u (k / nc))). fold j in J1, J2.
    assert (J3 : 0 <= j < nbf). { split; [apply Zfloor_lub; cbn; nra|]. apply lt_IZR. nra. }
    assert (EL : rnth law k = (1 / 4 + (2 * IZR j + 1 - IZR nbf) / (8 * IZR nbf))%R) by (rewrite VL by auto; unfold fr; fold j; field; lra).
    assert (J4 : (0 <= IZR j)%R) by (apply IZR_le; lia). assert (J5 : (IZR j <= IZR nbf - 1)%R) by (rewrite <- minus_IZR; apply IZR_le; lia).
    split; [exists j; split; [lia|split; [lra|exact EL]]|]. split; [|split].
    + rewrite EL. assert (D : (0 < / (8 * IZR nbf))%R) by (apply Rinv_0_lt_compat; lra). assert (D2 : ((8 * IZR nbf) * / (8 * IZR nbf) = 1)%R) by (apply Rinv_r; lra). unfold Rdiv. set (q := (/ (8 * IZR nbf))%R) in *. split; nra.
    + rewrite VY by lia. apply Cmod_cis.
    + rewrite VY, cumsum_rnth by lia. destruct (Z.eq_dec k 0); [|rewrite VY by lia].
      * rewrite Cmult_1_l. f_equal. ring.
      * rewrite <- cis_plus. f_equal. ring.
  - intros i k Hi Hk Q. rewrite !VL, Q by auto. reflexivity.
Qed.
Lemma c58_anafsk_raises : forall rand n nbf, uniform rand ->
  (anafsk rand n (Some 0) nbf = Raise ZeroDivisionError) /\
  (forall nc, 1 <= nc -> - nc < n -> anafsk rand n (Some nc) 0 = Raise ZeroDivisionError) /\
  (forall nc, 1 <= nc -> n <= - nc -> anafsk rand n (Some nc) nbf = Raise ValueError) /\
  (exists nc, nearest_even (IZR n / 5) nc /\ anafsk rand n None nbf = anafsk rand n (Some nc) nbf).
Proof.
  intros rand n nbf HR. unfold anafsk. split; [reflexivity|]. split; [|split].
  - intros nc Hc Hn. assert (HC := cdiv_spec n nc ltac:(lia)). destruct (Z.eqb_spec nc 0); [lia|]. unfold draw. destruct (Z.ltb_spec (cdiv n nc) 0); [nia|]. reflexivity.
  - intros nc Hc Hn. assert (HC := cdiv_spec n nc ltac:(lia)). destruct (Z.eqb_spec nc 0); [lia|]. unfold draw. destruct (Z.ltb_spec (cdiv n nc) 0); [reflexivity|nia].
  - exists (ZnearestE (IZR n / 5)). split; [apply near_even|reflexivity].
Qed.
Lemma c58_anafsk_length_refuted : exists n nc nbf, forall rand, uniform rand -> exists y law, anafsk rand n (Some nc) nbf = Ok (y, law) /\ zlen y <> n.
Proof.
  exists 3, 2, 4. intros rand HR. destruct (c58_anafsk rand 3 2 4 HR) as (y & law & E & L & _); [lia|lia|lia|]. exists y, law. split; [exact E|]. rewrite L. discriminate.
Qed.

(** QPSK: unit modulus, phases 0, pi/2, pi, 3pi/2 on blocks. *)
Lemma c58_anaqpsk : forall rand n nc f0, uniform rand -> 0 <= n -> 1 <= nc -> (nc | n) -> (0 <= f0 <= 1 / 2)%R ->
  exists y pm, anaqpsk rand n (Some nc) f0 = Ok (y, pm) /\ zlen y = n /\ zlen pm = n /\
  (forall k, 0 <= k < n ->
     (exists j, 0 <= j < 4 /\ (IZR j <= 4 * rnth (rand (cdiv n nc)) (k / nc) < IZR j + 1)%R /\ rnth pm k = (IZR j * (PI / 2))%R) /\
     cnth y k = (cis (2 * PI * f0 * (IZR k - 1)) * cis (rnth pm k))%C /\ Cmod (cnth y k) = 1%R) /\
  (forall j k, 0 <= j < n -> 0 <= k < n -> j / nc = k / nc -> rnth pm j = rnth pm k).
Proof.
  intros rand n nc f0 HR Hn Hc [q Hq] Hf. assert (HC := cdiv_spec n nc ltac:(lia)). assert (HM : 0 <= cdiv n nc) by nia. destruct (HR _ HM) as [LU VU].
  assert (EQ : cdiv n nc * nc = n) by (assert (cdiv n nc = q) by nia; lia).
  unfold anaqpsk. destruct (Rlt_dec f0 0); [lra|]. destruct (Rlt_dec (1 / 2) f0); [lra|]. destruct (Z.eqb_spec nc 0); [lia|]. unfold draw. destruct (Z.ltb_spec (cdiv n nc) 0); [lia|]. cbn [bind]. rewrite repeat_np_ok by lia. cbn [bind].
  set (u := rand (cdiv n nc)) in *. set (jp := fun v => if Zfloor (4 * v) =? 4 then 3 else Zfloor (4 * v)). set (pm := map _ (nrepeat (map jp u) nc)).
  assert (LN : zlen (nrepeat (map jp u) nc) = n) by (rewrite nrepeat_zlen, zlen_map, LU by lia; lia).
  assert (LP : zlen pm = n) by (unfold pm; now rewrite zlen_map).
  assert (IDX : forall k, 0 <= k < n -> 0 <= k / nc < cdiv n nc) by (intros k Hk; split; [apply Z.div_pos; lia|apply Z.div_lt_upper_bound; lia]).
  assert (VP : forall k, 0 <= k < n -> rnth pm k = (PI * IZR (jp (rnth u (k / nc))) / 2)%R).
  { intros k Hk. unfold rnth at 1, pm. rewrite (nth_indep _ 0%R (PI * IZR 0 / 2)%R) by (rewrite map_length; unfold zlen in LN; lia).
    rewrite (map_nth (fun j => PI * IZR j / 2)%R (nrepeat (map jp u) nc) 0 (Z.to_nat k)). rewrite nrepeat_nth by (try lia; rewrite zlen_map, LU; lia). specialize (IDX k Hk).
    rewrite (nth_indep _ 0 (jp 0%R)) by (rewrite map_length; unfold zlen in LU; lia). rewrite (map_nth jp). reflexivity. }
  unfold bcast. rewrite (proj2 (Nat.eqb_eq (length (arange 0 n)) (length pm))) by (rewrite arange_length; unfold zlen in LP; lia). cbn [bind].
  eexists _, pm. split; [reflexivity|]. split; [rewrite zlen_map, zipw_zlen; rewrite arange_zlen; lia|]. split; [auto|]. split.
  - intros k Hk. assert (Hu : (0 <= rnth u (k / nc) < 1)%R) by (apply VU, nth_In; specialize (IDX k Hk); unfold zlen in LU; lia).
    set (j := Zfloor (4 * rnth u (k / nc))). assert (J1 := Zfloor_lb (4 * rnth u (k / nc))). assert (J2 := Zfloor_ub (4 * rnth u (k / nc))). fold j in J1, J2.
    assert (J3 : 0 <= j < 4). { split; [apply Zfloor_lub; cbn; lra|]. apply lt_IZR. lra. }
    split; [exists j; split; [lia|split; [lra|]]|].
    + rewrite VP by auto. unfold jp. fold j. destruct (Z.eqb_spec j 4); [lia|]. field.
    + match goal with |- cnth ?Y k = ?V /\ _ => assert (EY : cnth Y k = V) end.
      { unfold cnth. match goal with |- nth ?K (map cis ?L) _ = _ => rewrite (nth_indep (map cis L) (RtoC 0) (cis 0)); [rewrite (map_nth cis L 0%R K)|] end.
        - rewrite (zipw_nth _ _ _ _ 0 0%R) by (rewrite ?arange_length; unfold zlen in LP; lia). rewrite nth_arange by lia. rewrite cis_plus. fold (rnth pm k). rewrite Z.add_0_l, Z2Nat.id by lia. reflexivity.
        - rewrite map_length. assert (Q := zipw_zlen (fun k p => 2 * PI * f0 * (IZR k - 1) + p)%R (arange 0 n) pm). rewrite arange_zlen in Q. unfold zlen in Q, LP. lia. }
      split; [exact EY|]. rewrite EY, Cmod_mult, !Cmod_cis. ring.
  - intros i k Hi Hk Q. rewrite !VP, Q by auto. reflexivity.
Qed.
Lemma c58_anaqpsk_raises : forall rand n nc f0, uniform rand -> 1 <= nc ->
  ((f0 < 0 \/ 1 / 2 < f0)%R -> anaqpsk rand n (Some nc) f0 = Raise TypeError) /\
  ((0 <= f0 <= 1 / 2)%R -> 2 <= n -> ~ (nc | n) -> anaqpsk rand n (Some nc) f0 = Raise ValueError) /\
  ((0 <= f0 <= 1 / 2)%R -> anaqpsk rand n (Some 0) f0 = Raise ZeroDivisionError) /\
  (exists nc', nearest_even (IZR n / 5) nc' /\ anaqpsk rand n None f0 = anaqpsk rand n (Some nc') f0).
Proof.
  intros rand n nc f0 HR Hc. unfold anaqpsk. split; [|split; [|split]].
  - intros H. destruct (Rlt_dec f0 0); [auto|]. destruct (Rlt_dec (1 / 2) f0); [auto|]. lra.
  - intros H Hn ND. assert (HC := cdiv_spec n nc ltac:(lia)). assert (HM : 0 <= cdiv n nc) by nia. destruct (HR _ HM) as [LU VU].
    destruct (Rlt_dec f0 0); [lra|]. destruct (Rlt_dec (1 / 2) f0); [lra|]. destruct (Z.eqb_spec nc 0); [lia|]. unfold draw. destruct (Z.ltb_spec (cdiv n nc) 0); [lia|]. cbn [bind]. rewrite repeat_np_ok by lia. cbn [bind].
    set (pm := map _ (nrepeat _ nc)). assert (LP : zlen pm = cdiv n nc * nc) by (unfold pm; rewrite zlen_map, nrepeat_zlen, zlen_map, LU by lia; lia).
    assert (NE : cdiv n nc * nc <> n) by (intros Q; apply ND; exists (cdiv n nc); lia). assert (LN := arange_length 0 n).
    unfold bcast. rewrite (proj2 (Nat.eqb_neq (length (arange 0 n)) (length pm))) by (rewrite arange_length; unfold zlen in LP; lia).
    destruct (arange 0 n) as [|a [|b l]]; [cbn in LN; lia|cbn in LN; lia|]. unfold zlen in LP. destruct pm as [|p [|p' pm']]; [reflexivity| |reflexivity]. cbn in LP. nia.
  - intros H. destruct (Rlt_dec f0 0); [lra|]. destruct (Rlt_dec (1 / 2) f0); [lra|]. reflexivity.
  - exists (ZnearestE (IZR n / 5)). split; [apply near_even|reflexivity].
Qed.
(** The default block length of 128 samples is 26, which does not divide 128. *)
Lemma c58_anaqpsk_default_refuted : forall rand, uniform rand -> anaqpsk rand 128 None (1 / 4) = Raise ValueError.
Proof.
  intros rand HR. assert (E : ZnearestE (IZR 128 / 5) = 26) by (apply Znearest_imp; cbn; apply Rabs_def1; lra).
  transitivity (anaqpsk rand 128 (Some 26) (1 / 4)); [unfold anaqpsk; now rewrite E|].
  apply (proj1 (proj2 (c58_anaqpsk_raises rand 128 26 (1 / 4) HR ltac:(lia)))); [lra|lia|]. intros [q Hq]. lia.
Qed.
(** Four samples in blocks of two drawn as 0.2 and 0.7. *)
Definition two_draws (m : Z) : list R := map (fun k => if k =? 0 then (2 / 10)%R else (7 / 10)%R) (arange 0 m).
Lemma two_uniform : uniform two_draws.
Proof.
  intros m Hm. unfold two_draws. split; [rewrite zlen_map_arange; lia|]. intros v Hv. apply in_map_iff in Hv. destruct Hv as (k & <- & _). destruct (k =? 0); lra.
Qed.
Example c58_example : exists y, anabpsk two_draws 4 (Some 2) (1 / 4) = Ok (y, [-1; -1; 1; 1]%R) /\ nth 2 y None = Some Ci.
Proof.
  destruct (c58_anabpsk two_draws 4 2 (1 / 4) two_uniform) as (y & am & E & (LY & LA & S) & _); [lia|lia|lra|]. exists (map Some y). rewrite E.
  assert (V : forall k, 0 <= k < 4 -> rnth am k = if k <? 2 then (-1)%R else 1%R).
  { intros k Hk. destruct (S k Hk) as [-> _]. assert (Q : k = 0 \/ k = 1 \/ k = 2 \/ k = 3) by lia.
    change (cdiv 4 2) with 2. assert (T0 : rnth (two_draws 2) 0 = (2 / 10)%R) by reflexivity. assert (T1 : rnth (two_draws 2) 1 = (7 / 10)%R) by reflexivity.
    destruct Q as [->|[->|[->| ->]]]; [change (0 / 2) with 0|change (1 / 2) with 0|change (2 / 2) with 1|change (3 / 2) with 1]; rewrite ?T0, ?T1; destruct (Rle_dec _ _); cbn [Z.ltb Z.compare Pos.compare Pos.compare_cont]; try reflexivity; lra. }
  assert (EA : am = [-1; -1; 1; 1]%R).
  { unfold zlen in LA. destruct am as [|a0 [|a1 [|a2 [|a3 [|]]]]]; cbn [length] in LA; try lia.
    assert (V0 := V 0 ltac:(lia)). assert (V1 := V 1 ltac:(lia)). assert (V2 := V 2 ltac:(lia)). assert (V3 := V 3 ltac:(lia)). unfold rnth in V0, V1, V2, V3.
    change (a0 = (-1)%R) in V0. change (a1 = (-1)%R) in V1. change (a2 = 1%R) in V2. change (a3 = 1%R) in V3. congruence. }
  split; [now rewrite EA|]. destruct (S 2 ltac:(lia)) as (_ & V2 & _). rewrite V in V2 by lia. cbn [Z.ltb Z.compare Pos.compare Pos.compare_cont] in V2.
  unfold zlen in LY. destruct y as [|y0 [|y1 [|y2 y3]]]; cbn [length] in LY; try lia. cbn [map nth]. unfold cnth in V2. change (Z.to_nat 2) with 2%nat in V2. cbn [nth] in V2. rewrite V2. f_equal.
  replace (2 * PI * (1 / 4) * (2 - 1))%R with (PI / 2)%R by lra. unfold cis. rewrite cos_PI2, sin_PI2. unfold Ci. rewrite Cmult_1_l. reflexivity.
Qed.

(** Negative block lengths: no call returns a signal of at least two samples. *)
Lemma cdiv_neg n nc : nc < 0 -> nc * cdiv n nc <= n < nc * (cdiv n nc - 1) /\ (0 < n -> cdiv n nc <= 0) /\ (n < 0 -> 0 < cdiv n nc) /\ (cdiv n nc = 0 <-> 0 <= n < - nc).
Proof. intros H. unfold cdiv. Z.to_euclidean_division_equations. nia. Qed.
Lemma repeat_np_neg {A} (l : list A) k : k < 0 -> repeat_np l k = if 0 <? zlen l then Raise ValueError else Ok [].
Proof.
  intros H. unfold repeat_np. destruct (Z.ltb_spec k 0); [|lia]. cbn [andb]. destruct (Z.ltb_spec 0 (zlen l)); [reflexivity|].
  destruct l; [reflexivity|]. unfold zlen in *. cbn [length] in *. lia.
Qed.
Lemma keyed_neg rand jump dflt n nc f0 : uniform rand -> nc < 0 -> (0 <= f0 <= 1 / 2)%R ->
  keyed rand jump dflt n (Some nc) f0 = Raise (if n =? 0 then TypeError else if (n =? 1) && (nc <? -1) then IndexError else ValueError).
Proof.
  intros HR Hc Hf. destruct (cdiv_neg n nc Hc) as (C1 & C2 & C3 & C4).
  unfold keyed. destruct (Rlt_dec f0 0); [lra|]. destruct (Rlt_dec (1 / 2) f0); [lra|]. destruct (Z.eqb_spec nc 0); [lia|]. unfold draw.
  destruct (Z.ltb_spec (cdiv n nc) 0) as [Q|Q]; cbn [bind].
  - destruct (Z.eqb_spec n 0); [lia|]. destruct (Z.eqb_spec n 1); [|reflexivity]. destruct (Z.ltb_spec nc (-1)); [lia|reflexivity].
  - destruct (HR _ Q) as [LU _]. rewrite repeat_np_neg, zlen_map, LU by lia. destruct (Z.ltb_spec 0 (cdiv n nc)); cbn [bind].
    + destruct (Z.eqb_spec n 0); [lia|]. destruct (Z.eqb_spec n 1); [lia|]. reflexivity.
    + assert (C0 : 0 <= n < - nc) by lia. destruct (Z.eqb_spec n 0) as [->|N0]; [rewrite (proj1 (c54_raises 0 f0 (Some 1%R))) by lia; reflexivity|].
      destruct (Z.eqb_spec n 1) as [->|N1].
      * destruct (Z.ltb_spec nc (-1)); [|lia]. cbn [andb]. rewrite (proj1 (proj2 (proj2 (c54_raises 1 f0 (Some 1%R))))); [reflexivity|lia|rewrite Rabs_right; lra|]. cbn [centre_of]. rewrite (trunc_IZR 1). lia.
      * cbn [andb]. destruct (c54_tone n f0 1) as (z & EZ & LZ & _); [lia|rewrite Rabs_right; lra|]. change 1%R with (IZR 1). rewrite EZ. cbn [bind].
        unfold prefix. rewrite firstn_nil. unfold bcast. rewrite map_length. destruct z as [|a [|b z]]; unfold zlen in LZ; cbn in LZ; try lia. reflexivity.
Qed.
Lemma c58_negative_blocks : forall rand n nc f0, uniform rand -> nc < 0 ->
  ((0 <= f0 <= 1 / 2)%R -> let e := if n =? 0 then TypeError else if (n =? 1) && (nc <? -1) then IndexError else ValueError in
     anaask rand n (Some nc) f0 = Raise e /\ anabpsk rand n (Some nc) f0 = Raise e) /\
  (forall nbf, nbf <> 0 -> anafsk rand n (Some nc) nbf = if (0 <=? n) && (n <? - nc) then Ok ([], []) else Raise ValueError) /\
  ((0 <= f0 <= 1 / 2)%R -> anaqpsk rand n (Some nc) f0 = if ((n =? 0) || (n =? 1)) && (n <? - nc) then Ok ([], []) else Raise ValueError).
Proof.
  intros rand n nc f0 HR Hc. destruct (cdiv_neg n nc Hc) as (C1 & C2 & C3 & C4). split; [|split].
  - intros Hf e. split; now apply keyed_neg.
  - intros nbf Hb. unfold anafsk. destruct (Z.eqb_spec nc 0); [lia|]. unfold draw. destruct (Z.ltb_spec (cdiv n nc) 0) as [Q|Q]; cbn [bind].
    + destruct (Z.leb_spec 0 n), (Z.ltb_spec n (- nc)); cbn [andb]; try lia; reflexivity.
    + destruct (Z.eqb_spec nbf 0); [lia|]. destruct (HR _ Q) as [LU _]. rewrite repeat_np_neg, zlen_map, LU by lia. destruct (Z.ltb_spec 0 (cdiv n nc)); cbn [bind]; destruct (Z.leb_spec 0 n), (Z.ltb_spec n (- nc)); cbn [andb]; try lia; reflexivity.
  - intros Hf. unfold anaqpsk. destruct (Rlt_dec f0 0); [lra|]. destruct (Rlt_dec (1 / 2) f0); [lra|]. destruct (Z.eqb_spec nc 0); [lia|]. unfold draw. destruct (Z.ltb_spec (cdiv n nc) 0) as [Q|Q]; cbn [bind].
    + destruct (Z.eqb_spec n 0), (Z.eqb_spec n 1), (Z.ltb_spec n (- nc)); cbn [andb orb]; try lia; reflexivity.
    + destruct (HR _ Q) as [LU _]. rewrite repeat_np_neg, zlen_map, LU by lia. destruct (Z.ltb_spec 0 (cdiv n nc)); cbn [bind].
      * destruct (Z.eqb_spec n 0), (Z.eqb_spec n 1), (Z.ltb_spec n (- nc)); cbn [andb orb]; try lia; reflexivity.
      * assert (C0 : 0 <= n < - nc) by lia. cbn [map]. destruct (Z.ltb_spec n (- nc)); [|lia]. rewrite andb_true_r.
        destruct (Z.eqb_spec n 0) as [->|N0]; [reflexivity|]. destruct (Z.eqb_spec n 1) as [->|N1]; [reflexivity|]. cbn [orb].
        assert (LN := arange_length 0 n). destruct (arange 0 n) as [|a [|b l]]; cbn in LN; try lia. reflexivity.
Qed.

(** QPSK of one sample is as long as the block; of none, or of a few too few, empty. *)
Lemma c58_anaqpsk_few : forall rand n nc f0, uniform rand -> 1 <= nc -> (0 <= f0 <= 1 / 2)%R ->
  (n = 1 -> exists y pm, anaqpsk rand n (Some nc) f0 = Ok (y, pm) /\ zlen y = nc) /\
  (- nc < n <= 0 -> anaqpsk rand n (Some nc) f0 = Ok ([], [])) /\
  (n <= - nc -> anaqpsk rand n (Some nc) f0 = Raise ValueError).
Proof.
  intros rand n nc f0 HR Hc Hf. assert (HC := cdiv_spec n nc ltac:(lia)).
  unfold anaqpsk. destruct (Rlt_dec f0 0); [lra|]. destruct (Rlt_dec (1 / 2) f0); [lra|]. destruct (Z.eqb_spec nc 0); [lia|]. unfold draw. split; [|split].
  - intros ->. assert (E1 : cdiv 1 nc = 1) by nia. rewrite E1. change (1 <? 0) with false. cbv iota. cbn [bind]. rewrite repeat_np_ok by lia. cbn [bind]. change (arange 0 1) with [0].
    destruct (HR 1 ltac:(lia)) as [LU _]. set (pm := map _ (nrepeat _ nc)). assert (LP : zlen pm = nc) by (unfold pm; rewrite zlen_map, nrepeat_zlen, zlen_map, LU by lia; lia).
    unfold bcast. destruct (Nat.eqb_spec (length [0]) (length pm)) as [Q|Q]; cbn [bind].
    + eexists _, _. split; [reflexivity|]. rewrite zlen_map, zipw_zlen; unfold zlen in *; cbn [length] in *; lia.
    + eexists _, _. split; [reflexivity|]. now rewrite !zlen_map.
  - intros Hn. assert (E1 : cdiv n nc = 0) by nia. rewrite E1. change (0 <? 0) with false. cbv iota. cbn [bind]. destruct (HR 0 ltac:(lia)) as [LU _]. destruct (rand 0); [|unfold zlen in LU; cbn [length] in LU; lia].
    cbn [map]. rewrite repeat_np_ok by lia. cbn [bind map nrepeat flat_map]. rewrite (arange_empty 0 n) by lia. reflexivity.
  - intros Hn. destruct (Z.ltb_spec (cdiv n nc) 0); [reflexivity|nia].
Qed.
