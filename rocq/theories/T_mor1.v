(** C164: morlet_scalogram with one frequency bin, with none, or with a time-bandwidth product of 0. *)
From Coq Require Import Reals ZArith List Lia Lra Bool.
From Coquelicot Require Import Coquelicot.
From Flocq Require Import Core.
From Verif Require Import Py Scalars CSum DFT Spec M_base P_base M_reas M_mor M_mor1 T_utils T_reas T_reas2 T_mor.
Import ListNotations.
Local Open Scope Z_scope.

Lemma any_regular x a d T n tbp : 2 <= T -> morlet_any x (Some (steps a d T)) (Some n) tbp =
  if n <? 0 then Raise ValueError else if (n =? 0) || (if Req_EM_T tbp 0 then true else false) then Raise ZeroDivisionError
  else if n =? 1 then
    cols <- mapM (fun ti => v <- mor_unit x tbp ti ;; Ok [v]) (steps a d T) ;;
    let tfr := map (map (fun v => Cmod v ^ 2)%R) cols in rtfr <- rmorlet_loop tfr 1 T (mean2 x * (1 / 1000000))%R ;; Ok (tfr, rtfr)
  else morlet x (Some (steps a d T)) (Some n) tbp.
Proof.
  intros HT. unfold morlet_any. cbv zeta. rewrite zdiffs_steps. set (D := map _ (arange 0 (T - 1))). assert (ND : D <> []) by (unfold D; rewrite arange_cons by lia; discriminate). assert (HD : forall b, In b D -> b = d) by (intros b Hb; unfold D in Hb; apply in_map_iff in Hb; destruct Hb as (? & <- & _); reflexivity).
  destruct (zmin_ok D ND) as [mn Emn]. destruct (zmax_ok D ND) as [mx Emx]. rewrite Emn, Emx. cbn [bind]. apply zmin_spec in Emn. apply zmax_spec in Emx. rewrite (HD mn (proj1 Emn)), (HD mx (proj1 Emx)), Z.eqb_refl. cbn [negb]. assert (LS : zlen (steps a d T) = T) by (unfold steps; rewrite zlen_map_arange; lia). rewrite LS. reflexivity.
Qed.
Lemma unit_ok x tbp t : 1 <= zlen x -> (0 < tbp)%R -> allowed (zlen x) t -> mor_unit x tbp t = Ok (RtoC 0).
Proof.
  intros HN Ht HA. assert (RP := reach_pos 1 tbp ltac:(lia) Ht). assert (HL : 1 <= hlen 1 tbp) by (unfold hlen; change (round_half 1) with 0; lia). unfold allowed in HA. unfold mor_unit. cbv zeta. rewrite hstar_eq. set (h := map _ (arange 0 (hlen 1 tbp))). assert (Lh : zlen h = hlen 1 tbp) by (unfold h; rewrite zlen_map_arange; lia). assert (Lg : zlen (map Cconj h) = hlen 1 tbp) by now rewrite zlen_map.
  assert (F0 : RtoC (mor_factor 1 tbp 0) = RtoC 0) by (unfold mor_factor; apply (f_equal RtoC); unfold Rdiv; rewrite Rmult_0_l; apply sqrt_0).
  destruct (dot_cases h x (fun s => 0 * s) (fun s => t + s) (map (fun s => s - 1) (arange 0 (zlen x - t + 1)))) as [[v E]|E].
  { intros s _. rewrite Lh. lia. }
  - rewrite E. cbn [bind].
    assert (D : exists b, mor_dot (map Cconj h) x (fun s => s * 0) (fun s => t - s) (map (fun s => s - 1) (arange 1 (t - 1 + 1))) = Ok b).
    { rewrite dot_ok; [eexists; reflexivity|intros s _; rewrite Lg; lia|]. intros s Hs. apply in_map_iff in Hs. destruct Hs as (s' & <- & Hs). apply in_arange in Hs. lia. }
    destruct D as (b & D). destruct (map (fun s => s - 1) (arange 1 (t - 1 + 1))); [|rewrite D]; cbn [bind]; rewrite F0; f_equal; ring.
  - exfalso. rewrite dot_ok in E; [discriminate|intros s _; rewrite Lh; lia|]. intros s Hs. apply in_map_iff in Hs. destruct Hs as (s' & <- & Hs). apply in_arange in Hs. lia.
Qed.
Lemma unit_raise x tbp t : 1 <= zlen x -> (0 < tbp)%R -> ~ allowed (zlen x) t -> mor_unit x tbp t = Raise IndexError.
Proof.
  intros HN Ht HA. assert (RP := reach_pos 1 tbp ltac:(lia) Ht). assert (HL : 1 <= hlen 1 tbp) by (unfold hlen; change (round_half 1) with 0; lia). unfold allowed in HA. unfold mor_unit. cbv zeta. rewrite hstar_eq. set (h := map _ (arange 0 (hlen 1 tbp))). assert (Lh : zlen h = hlen 1 tbp) by (unfold h; rewrite zlen_map_arange; lia). assert (Lg : zlen (map Cconj h) = hlen 1 tbp) by now rewrite zlen_map.
  destruct (Z_lt_le_dec t (1 - zlen x)) as [L|L].
  - rewrite (dot_raise h); [reflexivity|intros s _; rewrite Lh; lia|]. exists (-1). split; [|lia]. apply in_map_iff. exists 0. split; [reflexivity|]. apply in_arange. lia.
  - destruct (dot_cases h x (fun s => 0 * s) (fun s => t + s) (map (fun s => s - 1) (arange 0 (zlen x - t + 1)))) as [[v ->]| ->]; [intros s _; rewrite Lh; lia| |reflexivity]. cbn [bind].
    assert (D : mor_dot (map Cconj h) x (fun s => s * 0) (fun s => t - s) (map (fun s => s - 1) (arange 1 (t - 1 + 1))) = Raise IndexError).
    { apply dot_raise; [intros s _; rewrite Lg; lia|]. exists 0. split; [|lia]. apply in_map_iff. exists 1. split; [reflexivity|]. apply in_arange. lia. }
    destruct (map (fun s => s - 1) (arange 1 (t - 1 + 1))) as [|a l] eqn:E; [|now rewrite D]. exfalso. revert E. rewrite arange_cons by lia. discriminate.
Qed.
(** From two bins on it is the function of C92; irregular timestamps are rejected first. *)
Lemma c164_agrees : forall x l n tbp, 2 <= n -> (0 < tbp)%R -> morlet_any x l (Some n) tbp = morlet x l (Some n) tbp.
Proof.
  intros x l n tbp Hn Ht. unfold morlet_any. cbv zeta. destruct (Z.ltb_spec n 0); [lia|]. destruct (Z.eqb_spec n 0); [lia|]. destruct (Req_EM_T tbp 0); [lra|]. destruct (Z.eqb_spec n 1); [lia|]. cbn [orb]. unfold morlet. cbv zeta. set (s := match l with Some l => l | None => _ end). destruct (zmin (zdiffs s)); [cbn [bind]|reflexivity]. destruct (zmax (zdiffs s)); [cbn [bind]|reflexivity]. destruct (negb _); reflexivity.
Qed.
Lemma c164_irregular : forall x l n tbp, (forall a d T, 2 <= T -> l <> steps a d T) -> morlet_any x (Some l) n tbp = Raise ValueError.
Proof.
  intros x l n tbp H. unfold morlet_any. cbv zeta. destruct (zdiffs l) as [|d0 ds] eqn:ED; [reflexivity|]. destruct (zmin_ok (d0 :: ds)) as [mn Emn]; [discriminate|]. destruct (zmax_ok (d0 :: ds)) as [mx Emx]; [discriminate|]. rewrite Emn, Emx. cbn [bind]. destruct (Z.eqb_spec mn mx) as [->|]; [|reflexivity]. exfalso.
  apply zmin_spec in Emn. apply zmax_spec in Emx. apply (H (nth 0 l 0) mx (zlen l)).
  - destruct l as [|a [|b l]]; try discriminate. unfold zlen. cbn [length]. lia.
  - apply steps_of; [destruct l as [|a [|b l]]; try discriminate; unfold zlen; cbn [length]; lia|]. intros b Hb. rewrite ED in Hb. destruct Emn as [_ A], Emx as [_ B]. specialize (A b Hb). specialize (B b Hb). lia.
Qed.
Lemma c164_negative : forall x a d T n tbp, 2 <= T -> n < 0 -> morlet_any x (Some (steps a d T)) (Some n) tbp = Raise ValueError.
Proof. intros x a d T n tbp HT Hn. rewrite any_regular by exact HT. destruct (Z.ltb_spec n 0); [reflexivity|lia]. Qed.
(** No bins, or tbp = 0: the factor of line 313 (282) divides by zero, whatever the signal. *)
Lemma c164_zero : forall x a d T n tbp, 2 <= T -> 0 <= n -> n = 0 \/ tbp = 0%R -> morlet_any x (Some (steps a d T)) (Some n) tbp = Raise ZeroDivisionError.
Proof.
  intros x a d T n tbp HT Hn H. rewrite any_regular by exact HT. destruct (Z.ltb_spec n 0); [lia|]. destruct H as [-> | ->]; [reflexivity|]. destruct (Req_EM_T 0 0); [|congruence]. now rewrite orb_true_r.
Qed.
(** One bin: zeros, whatever the signal, at the timestamps of C92; IndexError otherwise. *)
Lemma c164_one : forall x a d T tbp, 1 <= zlen x -> 2 <= T -> (0 < tbp)%R ->
  ((forall i, 0 <= i < T -> 1 - zlen x <= a + d * i /\ (a + d * i < 2 \/ a + d * i < zlen x)) ->
   exists tfr rtfr, morlet_any x (Some (steps a d T)) (Some 1) tbp = Ok (tfr, rtfr) /\ shape tfr 1 T /\ shape rtfr 1 T /\ (forall c, 0 <= c < T -> rent tfr 0 c = 0%R /\ rent rtfr 0 c = 0%R)) /\
  (~ (forall i, 0 <= i < T -> 1 - zlen x <= a + d * i /\ (a + d * i < 2 \/ a + d * i < zlen x)) -> morlet_any x (Some (steps a d T)) (Some 1) tbp = Raise IndexError).
Proof.
  intros x a d T tbp HN HT Ht. rewrite any_regular by exact HT. change (1 <? 0) with false. change (1 =? 0) with false. change (1 =? 1) with true. destruct (Req_EM_T tbp 0); [lra|]. cbn [orb]. cbv iota zeta. unfold steps. rewrite !mapM_map. split.
  - intros HA. rewrite (mapM_ok _ (fun _ => [RtoC 0])).
    2:{ intros i Hi. apply in_arange in Hi. rewrite unit_ok; [reflexivity|exact HN|exact Ht|exact (HA i Hi)]. }
    cbn [bind]. rewrite map_map. cbn [map]. set (tfr := map _ (arange 0 T)).
    assert (Z0 : forall c, 0 <= c < T -> rent tfr 0 c = 0%R).
    { intros c Hc. unfold rent, tfr. rewrite (nth_indep _ [] [(Cmod (RtoC 0) ^ 2)%R]) by (rewrite map_length, arange_length; lia). rewrite (map_nth (fun _ : Z => [(Cmod (RtoC 0) ^ 2)%R]) (arange 0 T) 0). unfold rnth. cbn [nth Z.to_nat]. rewrite Cmod_0. ring. }
    assert (P : (0 <= mean2 x * (1 / 1000000))%R).
    { apply Rmult_le_pos; [|lra]. unfold mean2. apply Rmult_le_pos; [apply rsum_nonneg; intros z _; apply pow2_ge_0|]. apply Rlt_le, Rinv_0_lt_compat, IZR_lt. lia. }
    destruct (proj2 (c76_morlet_loop tfr 1 T (mean2 x * (1 / 1000000))%R ltac:(lia) ltac:(lia))) as (m & E & SM & V).
    { intros i j Hi Hj. assert (j = 0) as -> by lia. rewrite Z0 by exact Hi. exact P. }
    rewrite E. cbn [bind]. exists tfr, m. split; [reflexivity|]. split; [|split; [exact SM|]].
    + split; [unfold tfr; rewrite zlen_map_arange; lia|]. intros c Hc. unfold tfr in Hc. apply in_map_iff in Hc. destruct Hc as (? & <- & _). reflexivity.
    + intros c Hc. split; [now apply Z0|]. rewrite V by lia. now apply Z0.
  - intros HA. rewrite (mapM_raise _ _ IndexError); [reflexivity| |].
    + intros i _. destruct (Z_lt_le_dec (a + d * i) (1 - zlen x)) as [L|L].
      * right. rewrite unit_raise; [reflexivity|exact HN|exact Ht|unfold allowed; lia].
      * destruct (Z_lt_le_dec (a + d * i) (Z.max 2 (zlen x))) as [U|U].
        -- left. rewrite unit_ok; [eexists; reflexivity|exact HN|exact Ht|unfold allowed; lia].
        -- right. rewrite unit_raise; [reflexivity|exact HN|exact Ht|unfold allowed; lia].
    + destruct (Forall_Exists_dec (fun i => allowed (zlen x) (a + d * i)) (fun i => ltac:(unfold allowed; destruct (Z_le_dec (1 - zlen x) (a + d * i)); [destruct (Z_lt_dec (a + d * i) (Z.max 2 (zlen x))); [left; lia|right; lia]|right; lia])) (arange 0 T)) as [F|F].
      * exfalso. apply HA. intros i Hi. rewrite Forall_forall in F. apply F. now apply in_arange.
      * apply Exists_exists in F. destruct F as (i & Hi & B). exists i. split; [exact Hi|]. now rewrite unit_raise.
Qed.
(** 5, 5, 5: one bin gives zeros at 0, 1, 2 and IndexError at 1, 2, 3; no bins, or tbp = 0, ZeroDivisionError. *)
Example c164_example : let x := [RtoC 5; RtoC 5; RtoC 5] in
  (exists tfr rtfr, morlet_any x None (Some 1) (1 / 4)%R = Ok (tfr, rtfr) /\ forall c, 0 <= c < 3 -> rent tfr 0 c = 0%R) /\
  morlet_any x (Some [1; 2; 3]) (Some 1) (1 / 4)%R = Raise IndexError /\ morlet_any x None (Some 0) (1 / 4)%R = Raise ZeroDivisionError /\ morlet_any x None None 0%R = Raise ZeroDivisionError.
Proof.
  cbv zeta. set (x := [RtoC 5; RtoC 5; RtoC 5]). assert (D : forall n tbp, morlet_any x None (Some n) tbp = morlet_any x (Some (steps 0 1 3)) (Some n) tbp) by reflexivity. split; [|split; [|split]].
  - rewrite D. destruct (proj1 (c164_one x 0 1 3 (1 / 4)%R ltac:(change (zlen x) with 3; lia) ltac:(lia) ltac:(lra))) as (tfr & rtfr & E & _ & _ & V).
    + intros i Hi. change (zlen x) with 3. lia.
    + exists tfr, rtfr. split; [exact E|]. intros c Hc. now apply V.
  - change (Some [1; 2; 3]) with (Some (steps 1 1 3)). apply c164_one; [change (zlen x) with 3; lia|lia|lra|]. intros H. specialize (H 2 ltac:(lia)). change (zlen x) with 3 in H. lia.
  - rewrite D. apply c164_zero; [lia|lia|now left].
  - change (morlet_any x None None 0%R) with (morlet_any x None (Some 3) 0%R). rewrite D. apply c164_zero; [lia|lia|now right].
Qed.
