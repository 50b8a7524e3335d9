(* The version of a squashed document *)
From Coq Require Import String.
From Verif Require Import PyBase Model_Filters Model_Objects Model_Filestruct Model_Docstruct.
From Verif Require Import Spec_Objects Spec_Filestruct Spec_Docstruct Spec_Pages Spec_Squash.
From Verif Require Import Facts_Base Facts_Obj Facts_Doc Facts_Edit Facts_Squash Facts_Compress.
From Coq Require Import ZifyBool ZifyNat.

Section WithZlib.
Context {ZL : Zlib}.

Lemma ascii_first n s : is_ascii s = true -> is_ascii (firstn n s) = true.
Proof.
  unfold is_ascii. rewrite !forallb_forall. intros H x I. apply H. rewrite <- (firstn_skipn n s). apply in_or_app. auto.
Qed.
Lemma squash_version d c cat s d1 v dv : editable d -> self_numbered d -> catalog_at d c cat -> all_storable d -> exact_root d ->
  version d = Ok (v, dv) -> Forall (fun x => 0 <= x < 128) v -> squash d = Ok (Some s, d1) ->
  (exists s1, version s = Ok (v, s1)) /\ d_data s = [mk_datum None None (Some (PvDummy (B "%PDF-" ++ v)))].
Proof.
  intros ED SN CA KP EX VE AS H.
  destruct (squash_inv d s d1 c cat ED SN CA KP H) as (RO & l & f & LN & RN & SQ & row & x & DI & FX & FX' & ver & e0 & DD & C0 & _ & _ & _ & _ & _ & dv' & VD).
  rewrite VE in VD. injection VD as <- <-.
  assert (AV : is_ascii v = true). { apply forallb_forall. rewrite Forall_forall in AS. intros y I. specialize (AS y I). lia. }
  split.
  - pose proof CA as (t & r & V0 & GR & (g & -> & NC & VC)). pose proof (EX t g c V0 GR) as NMC.
    assert (IC : In c l) by (apply (proj2 LN); eauto). apply In_nth_error in IC as [i IC].
    destruct (sq_root _ _ _ _ SQ) as (t' & root & root' & V0' & GR' & RR & VR). rewrite V0 in V0'. injection V0' as <-. rewrite GR in GR'. injection GR' as <-.
    assert (ER : root' = PRef 0 (Z.of_nat i + 1)). { inversion RR as [? ?| | | |? N]; subst; [|contradiction]. rewrite (proj1 RN i c (g, c) IC NMC). cbn [fst snd]. f_equal. lia. }
    subst root'. destruct (sq_values _ _ _ _ SQ i c IC) as (vc & wc & VC' & CW & VW). rewrite VC in VC'. injection VC' as <-.
    destruct (version_short d v dv c cat (editable_coherent _ ED) CA VE) as (w & cv & LW & CV & EV).
    assert (exists ct, wc = PDict ct /\ cat_version (PDict ct) = Ok cv) as (ct & -> & CV').
    { inversion CW as [|? ? _ RC]; subst. pose proof RC as RC'. inversion RC as [| |? ct FF| |? N]; subst; [|contradiction]. exists ct. split; [auto|]. eapply cat_version_renamed; eauto. }
    assert (CS : catalog_at s (Z.of_nat i + 1) ct).
    { exists [(K_Root, PRef 0 (Z.of_nat i + 1))], (PRef 0 (Z.of_nat i + 1)). split; [auto|]. split; [reflexivity|]. exists 0. split; [auto|]. split; [lia|auto]. }
    destruct (catalog_read s _ ct (editable_coherent _ (sq_editable _ _ _ _ SQ)) CS) as (g1 & s1 & EC & _).
    exists s1. unfold version, fdata_at. rewrite DD. change (pyget [mk_datum None None (Some (PvDummy (W_header ++ v)))] 0) with (Ok (mk_datum None None (Some (PvDummy (W_header ++ v))))). cbn [bind of_opt dt_fdata].
    unfold read_at. cbn [run_prov bind]. change ((5 =? -1) && (3 =? 0)) with false. change (3 =? -1) with false. change (5 =? -1) with false. cbv iota zeta. cbn [bind]. change (5 <? 0) with false. cbv iota. cbn [bind]. rewrite sub_header, EC. cbn [bind]. rewrite CV'. cbn [bind].
    unfold ascii. rewrite (ascii_first 3 v AV). pose proof (version_again w cv LW) as VA. cbv zeta in VA. rewrite <- EV in VA. destruct cv; cbn [bind]; unfold smax in VA; rewrite VA; reflexivity.
  - exact DD.
Qed.
End WithZlib.
