(** C40, exactly: which exception the broken reassigned functions raise. *)
From Coq Require Import Reals ZArith List Lia Lra Bool.
From Coquelicot Require Import Coquelicot.
From Verif Require Import Py Scalars M_base P_base M_reas T_reas.
Import ListNotations.
Local Open Scope Z_scope.

(** No window: TypeError (the default Hamming window gets a float length); an even window:
    ValueError; an odd one: IndexError (its centre is a float). *)
Lemma c40_pmh_outcome : forall B (rest : list C -> res B) x n w,
  rpmh rest x n w = Raise (match w with None => TypeError | Some w => if Z.eq_dec (zlen w mod 2) 0 then ValueError else IndexError end).
Proof. intros. destruct w as [w|]; unfold rpmh; [|reflexivity]. destruct (Z.eq_dec _ _) as [E|E]; [rewrite E|rewrite (proj2 (Z.eqb_neq _ _) E)]; reflexivity. Qed.
Lemma c40_page_outcome : forall B (rest : list C -> res B) x n w,
  rppage rest x n w = Raise (match w with None => TypeError | Some w => if Z.eq_dec (zlen w mod 2) 0 then ValueError else IndexError end).
Proof. intros. destruct w as [w|]; unfold rppage; [|reflexivity]. destruct (Z.eq_dec _ _) as [E|E]; [rewrite E|rewrite (proj2 (Z.eqb_neq _ _) E)]; reflexivity. Qed.
(** Smoothed pseudo Wigner-Ville: TypeError unless both windows are given, ValueError for an even
    one (the frequency window is looked at first), and with everything right IndexError. *)
Lemma c40_spwv_no_window : forall B (rest : list C -> res B) x ts n tw w, zlen w mod 2 <> 0 ->
  rspwv rest x ts n tw None = Raise TypeError /\ rspwv rest x ts n None (Some w) = Raise TypeError.
Proof. intros B rest x ts n tw w E. unfold rspwv. cbv zeta. rewrite (proj2 (Z.eqb_neq _ _) E). split; reflexivity. Qed.
Lemma c40_spwv_even : forall B (rest : list C -> res B) x ts n tw fw, 
  (zlen fw mod 2 = 0 -> rspwv rest x ts n tw (Some fw) = Raise ValueError) /\
  (zlen fw mod 2 <> 0 -> forall w, tw = Some w -> zlen w mod 2 = 0 -> rspwv rest x ts n tw (Some fw) = Raise ValueError).
Proof.
  intros B rest x ts n tw fw. unfold rspwv. cbv zeta. split; [intros E; rewrite E; reflexivity|]. intros E w -> E2. rewrite (proj2 (Z.eqb_neq _ _) E), E2. reflexivity.
Qed.
Lemma c40_spwv_outcome : forall B (rest : list C -> res B) (x : list C) n tw fw, 2 <= zlen x -> match n with Some n => 0 <= n | None => True end ->
  zlen tw mod 2 <> 0 -> zlen fw mod 2 <> 0 -> rspwv rest x None n (Some tw) (Some fw) = Raise IndexError.
Proof.
  intros B rest x n tw fw Hx Hn Ht Hf. unfold rspwv. cbv zeta. rewrite (proj2 (Z.eqb_neq _ _) Ht), (proj2 (Z.eqb_neq _ _) Hf). cbn [bind].
  assert (D : zdiffs (arange 0 (zlen x)) = map (fun _ => 1) (arange 0 (zlen x - 1))) by (rewrite <- (Z.add_0_l (zlen x)) at 1; apply zdiffs_arange). rewrite D.
  assert (I : In 1 (map (fun _ : Z => 1) (arange 0 (zlen x - 1)))) by (apply in_map_iff; exists 0; rewrite in_arange; split; [reflexivity|lia]).
  assert (A : forall b, In b (map (fun _ : Z => 1) (arange 0 (zlen x - 1))) -> b = 1) by (intros b Hb; apply in_map_iff in Hb as (? & <- & _); reflexivity).
  rewrite (proj2 (zmin_spec _ 1)) by (split; auto; intros b Hb; rewrite (A b Hb); lia). cbn [bind]. rewrite (proj2 (zmax_spec _ 1)) by (split; auto; intros b Hb; rewrite (A b Hb); lia). cbn [bind].
  change (negb (1 =? 1)) with false. cbv iota. replace (_ <? 0) with false by (destruct n; symmetry; apply Z.ltb_ge; [lia|unfold zlen; lia]).
  destruct (derive_window_cases fw) as (od & -> & _). { assert (zlen fw <> 0) by (intros Q; rewrite Q in Hf; now apply Hf). unfold zlen in *; lia. } cbn [bind].
  destruct (arange 0 (zlen x)) as [|t l] eqn:E; [|reflexivity]. assert (Q := arange_zlen 0 (zlen x)). rewrite E in Q. change (zlen (@nil Z)) with 0 in Q. lia.
Qed.
Example c40_outcome_example : rpmh (fun _ => Ok tt) [RtoC 1] None (Some [RtoC 1; RtoC 2; RtoC 1]) = Raise IndexError /\
  rspwv (fun _ => Ok tt) [RtoC 1; RtoC 2] None None (Some [RtoC 1]) (Some [RtoC 1; RtoC 2; RtoC 1]) = Raise IndexError.
Proof. split; [reflexivity|apply c40_spwv_outcome; try exact I; cbn; lia]. Qed.
