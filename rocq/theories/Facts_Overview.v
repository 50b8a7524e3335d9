(* Proofs about the command overview *)
From Coq Require Import String QArith Qcanon.
From Verif Require Import PyBase Model_Filters Model_Objects Model_Filestruct Model_Text Model_Docstruct Model_Api Model_Graphics Model_Structure Model_Overview.
From Verif Require Import Spec_Objects Spec_Filestruct Spec_Docstruct Spec_Pages Spec_Calls Spec_Structure Spec_Overview.
From Verif Require Import Facts_Base Facts_Obj Facts_Doc Facts_Edit Facts_Pages Facts_Calls Facts_Structure.
From Coq Require Import ZifyBool ZifyNat.
Open Scope Z_scope.

Lemma yes_no_bool (b : bool) (P : Prop) : (b = true <-> P) -> yes_no P (py_bool b).
Proof. intros [H1 H2]. destruct b; [left; auto|right]. split; [intro Q; specialize (H2 Q); discriminate|reflexivity]. Qed.
Lemma metadata_lines (b : bool) (P : Prop) ks rs : (b = true <-> P) -> length ks = length rs -> Forall (fun r => r <> Some []) rs ->
  exists vals, Forall2 (entry_value P) rs vals /\ flat_map (metadata_line b) (combine ks rs) = lines_text (combine ks vals).
Proof.
  intros HB. revert rs. induction ks as [|k ks IH]; intros [|r rs] L F; try discriminate; [exists []; split; [constructor|reflexivity]|].
  destruct (IH rs ltac:(cbn [length] in L; lia) (Forall_inv_tail F)) as (vals & F2 & E). pose proof (Forall_inv F) as N.
  cbn [combine flat_map]. rewrite E. destruct r as [[|c t]|].
  - congruence.
  - exists ((if b then B "#Encrypted#" else c :: t) :: vals). split; [constructor; [|exact F2]; destruct b; [apply En_hidden, HB; reflexivity|apply En_text; intro Q; apply HB in Q; discriminate]|].
    unfold lines_text. cbn [combine map concat fst snd metadata_line]. unfold field. rewrite <- ?app_assoc. reflexivity.
  - exists (B "None" :: vals). split; [constructor; [apply En_none|exact F2]|]. unfold lines_text. cbn [combine map concat fst snd metadata_line]. unfold field. rewrite <- ?app_assoc. reflexivity.
Qed.
Section WithZlib.
Context {ZL : Zlib}.
Lemma info_at_ro d d1 i : read_only d d1 -> info_at d i -> info_at d1 i.
Proof.
  intros R (t & V & H). exists t. split; [rewrite (ro_values _ _ R); [exact V|lia]|]. destruct H as [H|(r & n & E & P)]; [left; exact H|right]. exists r, n. split; [exact E|]. eapply points_ro; eauto.
Qed.
Theorem overview_spec show d h F t c cat vs td hy lin x rest m sx sy fuel base i rs :
  coherent d -> headed d h F -> has_tree d t -> (depth t < fuel)%nat -> catalog_at d c cat -> declared h cat vs ->
  dget K_Count (tdict t) = Some (PInt (Z.of_nat (length (leaves t)))) ->
  value d 0 = Ok (PDict td) -> (protected td \/ unprotected td) -> marked d hy -> linearized (PvSingle F) = Ok lin ->
  leaves t = x :: rest -> attribute base x K_MediaBox (Some m) -> sides m sx sy ->
  info_at d i -> Forall2 (info_text d i) info_keys rs ->
  exists out base' d' v e hyb l k vals, overview show fuel d base = Ok (out, base', d') /\ same_values d d' /\
    greatest vs v /\ yes_no (protected td) e /\ yes_no (hy = true) hyb /\ yes_no (exists p, lin = Some p) l /\ paper_text sx sy k /\ Forall2 (entry_value (protected td)) rs vals /\
    out = B "# Structure" ++ [10] ++
      lines_text [(B "Version", v); (B "Pages", show (PInt (Z.of_nat (length (leaves t))))); (B "Revisions", dec (Z.of_nat (length (d_index d)) - 1));
                  (B "Encrypted", e); (B "Hybrid", hyb); (B "Linearized", l); (B "Paper of 1st page", k)] ++
      [10] ++ B "# Metadata" ++ [10] ++ lines_text (combine info_keys vals).
Proof.
  intros C HD HT DT CA DE CO V P HY LI LV AT SD IA IT.
  destruct (structure_ro d h F t c cat vs td hy lin x rest m sx sy fuel base C HD HT DT CA DE CO V P HY LI LV AT SD) as (a & base' & d1 & E1 & R1 & G & NP & NR & EN & HH & LL & PP).
  assert (IT1 : Forall2 (info_text d1 i) info_keys rs).
  { eapply Facts_Pages.Forall2_impl; [|exact IT]. cbn beta. intros u w Q. destruct Q; [now apply It_none|eapply It_null|eapply It_empty|eapply It_text]; eauto using deref_ro. }
  destruct (metadata_spec d1 i rs (ro_coherent _ _ R1) (info_at_ro _ _ _ R1 IA) IT1) as (d2 & E2 & SV).
  destruct (metadata_lines (a_encrypted a) (protected td) info_keys rs EN) as (vals & F2 & EM).
  { clear -IT. induction IT; cbn; congruence. }
  { clear -IT. induction IT as [|u w us ws Q F IH]; constructor; auto. destruct Q; congruence. }
  exists (overview_text show a (combine info_keys rs)), base', d2, (a_version a), (py_bool (a_encrypted a)), (py_bool (a_hybrid a)), (py_bool (a_linearized a)), (a_paper a), vals.
  split; [unfold overview; rewrite E1; cbn [bind]; rewrite E2; reflexivity|].
  split; [intros n N; rewrite (SV n N); apply (ro_values _ _ R1); exact N|]. split; [exact G|]. split; [apply yes_no_bool, EN|]. split; [apply yes_no_bool; rewrite HH; tauto|]. split; [apply yes_no_bool, LL|]. split; [exact PP|]. split; [exact F2|].
  unfold overview_text, structure_text. match goal with |- context [flat_map ?f ?l] => replace (flat_map f l) with (lines_text (combine info_keys vals)) by (symmetry; exact EM) end. rewrite NP, NR. unfold lines_text at 2. cbn [map concat fst snd]. unfold field. rewrite <- ?app_assoc, ?app_nil_r, <- ?app_assoc. reflexivity.
Qed.
End WithZlib.
