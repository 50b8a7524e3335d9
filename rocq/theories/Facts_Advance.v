(* Proofs about the displacement of TJ arrays *)
From Coq Require Import String QArith Qcanon ZifyBool ZifyNat.
From Verif Require Import PyBase Model_Filters Model_Objects Spec_Objects Facts_Base
  Model_Text Model_Graphics Spec_Graphics Facts_Graphics Spec_Advance.
Open Scope Z_scope.

Lemma spaces_app a b : spaces (a ++ b) = spaces a + spaces b.
Proof. unfold spaces. rewrite filter_app, app_length. lia. Qed.
Lemma codes_ok f l cs : Forall2 (tj_codes f) l cs -> Forall (tj_ok f) l.
Proof. induction 1 as [|e c l cs H _ IH]; constructor; [|exact IH]. destruct e; cbn in *; [exists c; exact H|apply H]. Qed.
Lemma array_shift_sum f fs tc tw th l cs : Forall2 (tj_codes f) l cs ->
  array_shift fs tc tw th l cs =
  ((sum_q (map tj_advance l) * fs + qc (Z.of_nat (length (concat cs))) * tc + qc (spaces (concat cs)) * tw) * th / qc 100)%Qc.
Proof.
  unfold array_shift. assert (Z0 : qc 0 = 0%Qc) by (apply Qc_is_canon; reflexivity). assert (N1 : qc 1000 <> 0%Qc) by discriminate. assert (N2 : qc 100 <> 0%Qc) by discriminate.
  induction 1 as [|e c l cs H _ IH].
  - cbn [combine map sum_q concat length]. change (Z.of_nat 0) with 0. change (spaces []) with 0. rewrite Z0. field. auto.
  - cbn [combine map sum_q concat fst snd]. rewrite IH. rewrite app_length, Nat2Z.inj_add, spaces_app, !qc_plus. destruct e as [s us ws|o v]; cbn [elem_shift tj_advance tj_codes] in *.
    + destruct H as [_ H]. rewrite string_shift_sum by (clear - H; induction H; cbn; congruence). field. auto.
    + destruct H as [_ ->]. change (Z.of_nat (length (@nil Z))) with 0. change (spaces []) with 0. rewrite Z0. field. auto.
Qed.
Lemma array_spacing fonts l cs r g st ts fr f sp fs th rise tc tw :
  fragments_loop fonts ([PList (map tj_obj l); PStr (B "TJ")] :: r) (g :: st) (Some ts) = Ok fr ->
  font_of fonts (t_Tf ts) = Ok f -> Forall2 (tj_codes f) l cs -> l <> [] ->
  num_of (f_width f 32) = Ok sp -> q_int sp <> 0 ->
  num_of (t_Tfs ts) = Ok fs -> num_of (t_Th ts) = Ok th -> num_of (t_Trise ts) = Ok rise ->
  num_of (t_Tc ts) = Ok tc -> num_of (t_Tw ts) = Ok tw ->
  exists m rest, fragments_loop fonts r (g :: st) (Some (set_tm m (t_tlm ts) ts)) = Ok rest /\
  forall p, act m p = act (t_tm ts) (shift p (array_shift fs tc tw th l cs
     + (qc (1 - Z.of_nat (length (concat cs))) * tc + qc (1 - spaces (concat cs)) * tw
        + qc (tj_count l) * (sp / qc 5 / qc 1000) * fs) * th / qc 100, 0)%Qc).
Proof.
  intros H Hf Hl NE Hsp Nsp Hfs Hth Hri Htc Htw. cbn [fragments_loop command_op last bind] in H.
  assert (Ea : apply_command [PList (map tj_obj l); PStr (B "TJ")] (g :: st) (Some ts) = Ok (g :: st, ts)).
  { unfold apply_command. cbn [command_op last bind hd tl]. ops. reflexivity. }
  rewrite Ea in H. cbn [bind] in H. change (op_is (PStr (B "TJ")) "TJ" || op_is (PStr (B "TJ")) "Tj") with true in H. cbv iota in H.
  destruct (trm_act ts g st fs th rise Hfs Hth Hri) as (old & Eo & Ho). rewrite Eo in H. cbn [bind] in H.
  destruct (tj_items_width f sp l Hsp Nsp (codes_ok f l cs Hl) [] (qc 0)) as (u & Eu).
  set (w := (qc 0 + sum_q (map tj_advance l) + qc (tj_count l) * (sp * (qc 2 / qc 10) / qc 1000))%Qc) in *.
  assert (Et : text_element_to_unicode fonts [PList (map tj_obj l); PStr (B "TJ")] ts = Ok (u, w)).
  { unfold text_element_to_unicode. cbn [command_op last bind]. ops. cbn [before_last rev app bind]. destruct l as [|e l]; [congruence|]. cbn [map] in *. rewrite Hf. cbn [bind]. exact Eu. }
  rewrite Et in H. cbn [bind] in H. rewrite Hfs, Htc, Htw, Hth in H. cbn [bind] in H.
  set (tx := ((w * fs + tc + tw) * th / qc 100)%Qc) in *. set (m := multiply_matrices (mkmat 1 0 0 1 tx 0) (t_tm ts)) in *.
  destruct (trm_act (set_tm m (t_tlm ts) ts) g st fs th rise Hfs Hth Hri) as (new & En & Hn). rewrite En in H. cbn [bind] in H.
  destruct (fragments_loop fonts r (g :: st) _) as [rest| |] eqn:Er; cbn [bind] in H; try discriminate.
  exists m, rest. split; [exact Er|]. intro p. unfold m. rewrite act_shift. do 3 f_equal. unfold tx, w.
  rewrite (array_shift_sum f fs tc tw th l cs Hl).
  assert (Z0 : qc 0 = 0%Qc) by (apply Qc_is_canon; reflexivity). assert (Z1 : qc 1 = 1%Qc) by (apply Qc_is_canon; reflexivity).
  assert (N1 : qc 1000 <> 0%Qc) by discriminate. assert (N2 : qc 100 <> 0%Qc) by discriminate. assert (N5 : qc 5 <> 0%Qc) by discriminate.
  replace (qc 2 / qc 10)%Qc with (1 / qc 5)%Qc by (apply Qc_is_canon; vm_compute; reflexivity).
  set (n := Z.of_nat (length (concat cs))). set (k := spaces (concat cs)).
  replace (qc (1 - n)) with (1 - qc n)%Qc by (rewrite <- Z1 at 1; replace (qc 1) with (qc (1 - n) + qc n)%Qc by (rewrite <- qc_plus; f_equal; lia); ring).
  replace (qc (1 - k)) with (1 - qc k)%Qc by (rewrite <- Z1 at 1; replace (qc 1) with (qc (1 - k) + qc k)%Qc by (rewrite <- qc_plus; f_equal; lia); ring).
  rewrite Z0. field. auto.
Qed.
