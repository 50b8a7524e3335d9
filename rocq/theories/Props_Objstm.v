(* Property C66: object streams *)
From Coq Require Import String.
From Verif Require Import PyBase Model_Filters Model_Objects Model_Filestruct Spec_Objects Spec_Filters Spec_Filestruct Spec_Objstm
  Facts_Base Facts_Filters Facts_Objstm.
From Verif Require Props_Objects.

(* ---------------- C66 ---------------- *)
Theorem C66_object_stream_partial {ZL : Zlib} : forall l d e env, l <> [] -> Forall (fun p => wf_top (snd p)) l ->
  dget (B "/FirstLine") d = None -> dget (B "/First") d = None -> dget (B "/N") d = None ->
  exists packed, pack l (PStream d (Some []) e) = Ok packed /\
    (dget (B "/Filter") d = None -> exists fin, finalize_stream packed = Ok fin) /\
    forall fin, finalize_stream packed = Ok fin -> exists d' data enc, fin = PStream d' (Some data) (Some enc) /\
      encode_stream data d = Ok enc /\
      dget (B "/N") d' = Some (PInt (Z.of_nat (length l))) /\
      (exists r, parse_object_stream d' (Some data) env = Ok r /\ Forall2 (unpacked env) l r) /\
      (storable fin -> exists v, serialize fin = Ok v /\ forall pre tail, exists d'' r,
         parse_obj (pre ++ v ++ tail) (length pre) = Ok (PStream d'' (Some data) (Some enc)) /\
         parse_object_stream d'' (Some data) env = Ok r /\ Forall2 (unpacked env) l r).
Proof. exact object_stream_roundtrip. Qed.
Print Assumptions C66_object_stream_partial.

(* an object whose value is a reference takes three tokens: the others are shifted *)
Theorem C66_refuted {ZL : Zlib} : exists l packed d' data enc, Forall (fun p => exists v, serialize (snd p) = Ok v) l /\
  pack l (PStream [] (Some []) None) = Ok packed /\ finalize_stream packed = Ok (PStream d' (Some data) enc) /\
  forall r, parse_object_stream d' (Some data) 9 = Ok r -> ~ Forall2 (unpacked 9) l r.
Proof.
  exists [(5, PRef 0 3); (6, PInt 1)]. eexists _, _, _, _. split; [repeat constructor; eexists; vm_compute; reflexivity|].
  split; [vm_compute; reflexivity|]. split; [vm_compute; reflexivity|].
  intros r E. vm_compute in E. inversion E; subst r. intro H. inversion H as [|? ? ? ? (_ & Q & _) _]; subst. inversion Q.
Qed.
Print Assumptions C66_refuted.

Example C66_case : let l := [(4, PDict [(B "/K", PRef 0 2)]); (7, PStr (B "/Name")); (12, PInt 25)] in
  let d := [(B "/Type", PStr (B "/ObjStm"))] in
  Forall (fun p => wf_top (snd p)) l /\
  exists packed d' data, pack l (PStream d (Some []) None) = Ok packed /\
    @finalize_stream store_codec packed = Ok (PStream d' (Some data) (Some data)) /\
    data = B "4 0 7 15 12 21 " ++ [10] ++ B "<< /K 2 0 R >>" ++ [10] ++ B "/Name" ++ [10] ++ B "25" ++ [10] /\
    @storable store_codec (PStream d' (Some data) (Some data)) /\
    @parse_object_stream store_codec d' (Some data) 9
    = Ok [mk_emb (PInt 4) (PDict [(B "/K", PRef 0 2)]) 9 (Some 16%nat) 16;
          mk_emb (PInt 7) (PStr (B "/Name")) 9 (Some 31%nat) 31; mk_emb (PInt 12) (PInt 25) 9 (Some 37%nat) 37].
Proof.
  cbn zeta. split.
  { repeat apply Forall_cons; try apply Forall_nil; match goal with |- context [snd (_, ?o)] => change (wf_top o); apply wt_val; [change (wfv o); Props_Objects.wfb|discriminate] end. }
  eexists _, _, _. split; [vm_compute; reflexivity|]. split; [vm_compute; reflexivity|]. split; [vm_compute; reflexivity|]. split; [|vm_compute; reflexivity].
  apply st_stream; try discriminate; [Props_Objects.wfb| |reflexivity].
  intros (a & b & E). assert (N : In 115 (B "endstream")) by (vm_compute; tauto).
  match type of E with ?x = _ => assert (N2 : In 115 x) by (rewrite E; apply in_or_app; right; apply in_or_app; left; exact N) end.
  vm_compute in N2. intuition discriminate.
Qed.
