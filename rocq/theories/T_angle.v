(** C51, continued: the angle of zero. *)
From Coq Require Import Reals ZArith List Lia Lra Bool.
From Coquelicot Require Import Coquelicot.
From Verif Require Import Py Scalars CSum DFT Spec M_base M_putils M_dom P_base T_dom.
Import ListNotations.
Local Open Scope Z_scope.

(** Where either of the two samples is zero the value is 0, 1/4 or 1/2, depending on the signs of the zeros; each of the three occurs. *)
Lemma c51_silence : (forall ang x fs k, (forall k z, is_angle z (ang k z)) -> inst_freq ang x None = Ok (fs, arange 2 (zlen x)) -> 0 <= k < zlen x - 2 ->
    cnth x k = RtoC 0 \/ cnth x (k + 2) = RtoC 0 -> rnth fs k = 0%R \/ rnth fs k = (1 / 4)%R \/ rnth fs k = (1 / 2)%R) /\
  forall v, (v = 0 \/ v = 1 / 4 \/ v = 1 / 2)%R -> exists ang, (forall k z, is_angle z (ang k z)) /\
    inst_freq ang [RtoC 0; RtoC 0; RtoC 0] None = Ok ([v], [2]).
Proof.
  assert (HP := PI_RGT_0). split.
  - intros ang x fs k HA E Hk HZ. destruct (c51_outcome ang x None) as [H _]. destruct H as (fs' & E' & L & V); [intros i Hi; apply in_arange in Hi; lia|].
    assert (fs' = fs) by congruence. subst fs'. destruct (V k) as (u & v & GU & GV & EV); [rewrite arange_zlen; lia|].
    assert (NK : nth (Z.to_nat k) (arange 2 (zlen x)) 0 = 2 + k) by (apply nth_error_nth; rewrite nth_error_arange by lia; f_equal; lia).
    rewrite NK in *. rewrite (get_ok (RtoC 0)) in GU, GV by lia. replace (2 + k - 2) with k in GV by lia. replace (2 + k) with (k + 2) in GU by lia.
    assert (ZZ : (- u * Cconj v)%C = RtoC 0). { destruct HZ as [Z|Z]; [assert (v = RtoC 0) by (unfold cnth in Z; congruence)|assert (u = RtoC 0) by (unfold cnth in Z; congruence)]; subst; rewrite ?Cconj_R; ring. }
    rewrite EV. unfold inst_entry. destruct (HA k (- u * Cconj v)%C) as (_ & _ & Q). destruct (Q ZZ) as [A|[A|A]]; rewrite A; [right; left|right; right|left]; field; lra.
  - intros v Hv. exists (fun (_ : Z) (z : C) => if Ceq_dec z (RtoC 0) then (4 * PI * v - PI)%R else Carg z). split.
    + intros _ z. destruct (Ceq_dec z (RtoC 0)) as [->|NZ]; [|apply Carg_angle].
      split; [destruct Hv as [->|[->| ->]]; lra|]. split; [rewrite Cmod_0; ring|]. intros _. destruct Hv as [->|[->| ->]]; [right; right|left|right; left]; field.
    + unfold inst_freq, take. change (arange 2 (zlen [RtoC 0; RtoC 0; RtoC 0])) with [2]. cbn [map mapM get bind]. change (2 - 2) with 0. rewrite !(get_ok (RtoC 0)) by (cbn; lia). cbn [bind zipw]. change (Z.to_nat 2) with 2%nat. change (Z.to_nat 0) with 0%nat. cbn [nth].
      unfold enum. cbn -[Ceq_dec Cmult Copp Cconj RtoC Rmult Rdiv Rplus Rminus]. change (Pos.to_nat 1) with 1%nat. cbn [seq map combine snd]. match goal with |- context [Ceq_dec ?a ?b] => destruct (Ceq_dec a b) as [_|N] end; [do 3 f_equal; field; lra|]. exfalso. apply N. rewrite Cconj_R. ring.
Qed.
