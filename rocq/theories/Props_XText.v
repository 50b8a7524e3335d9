(* Property C105: xref streams as other programs write them *)
From Coq Require Import String.
From Verif Require Import PyBase Model_Filters Model_Objects Model_Filestruct Spec_Objects Spec_Filters Spec_Streams.
From Verif Require Import Facts_Base Facts_XText.

(* ---------------- C105 ---------------- *)
(* full statement: for every xref stream that the format allows.  xstream_text leaves out
   a first field of width 0, whose type is then 1, subsections of no entry, and more than
   three fields *)
Theorem C105_xstream_partial : forall d nums rows data, xstream_text d nums rows data ->
  exists r, parse_xref_stream_raw d (Some data) = Ok r /\
    map (fun l => (xs_num l, xs_free l, xs_env l, xs_off l, xs_gen l)) r = flat_map (fun p => row_says (fst p) (snd p)) (combine nums rows).
Proof. exact xstream_found. Qed.
Print Assumptions C105_xstream_partial.
(* the entries of the index: one for each object in use, except number 0 *)
Theorem C105_entries_partial : forall d nums rows data pos num, xstream_text d nums rows data -> Forall (fun x => xr_type x = 2 -> xr_two x <> 0) rows ->
  exists h r, parse_xref_stream d (Some data) pos num = Ok (h :: r) /\ n_num h = 0 /\ n_pos h = Some (AInt pos) /\ n_xsn h = Some num /\
    forall e, In e r <-> exists n x, xlists nums rows n x /\ n <> 0 /\
      (xr_type x = 1 /\ e = with_pos (Some (AInt (xr_two x))) (ient0 n (xr_three x)) \/
       xr_type x = 2 /\ e = with_opos (Some (xr_three x)) (with_env (Some (xr_two x)) (with_pos (Some (ATup (xr_two x) (xr_three x))) (ient0 n 0)))).
Proof. exact xstream_entries. Qed.
Print Assumptions C105_entries_partial.

(* a first field of width 0 stands for type 1: here it is read as a free entry *)
Theorem C105_type_refuted : exists d r,
  dget (B "/W") d = Some (PList [PInt 0; PInt 1; PInt 1]) /\ parse_xref_stream_raw d (Some [9; 0]) = Ok r /\
  map (fun l => (xs_num l, xs_free l, xs_off l)) r = [(0, true, 9)].
Proof. exists [(B "/W", PList [PInt 0; PInt 1; PInt 1]); (B "/Size", PInt 1)]. eexists. split; [reflexivity|]. split; [vm_compute; reflexivity|vm_compute; reflexivity]. Qed.
Print Assumptions C105_type_refuted.
(* a subsection of no entry takes the entry of the next one: the entry is that of object 5 *)
Theorem C105_empty_refuted : exists d r,
  dget (B "/Index") d = Some (PList [PInt 3; PInt 0; PInt 5; PInt 1]) /\ parse_xref_stream_raw d (Some [1; 9; 0]) = Ok r /\
  map (fun l => (xs_num l, xs_free l, xs_off l)) r = [(3, false, 9)].
Proof. exists [(B "/W", PList [PInt 1; PInt 1; PInt 1]); (B "/Index", PList [PInt 3; PInt 0; PInt 5; PInt 1])]. eexists. split; [reflexivity|]. split; [vm_compute; reflexivity|vm_compute; reflexivity]. Qed.
Print Assumptions C105_empty_refuted.

Definition xs_dict (l : dict) : dict := (B "/W", PList [PInt 1; PInt 2; PInt 0]) :: l.
Lemma case_rows : rows_text 1 2 0 [mk_xrow 0 0 0; mk_xrow 1 258 0; mk_xrow 2 1 0; mk_xrow 7 1 0] [0; 0; 0; 1; 1; 2; 2; 0; 1; 7; 0; 1].
Proof.
  assert (N1 : forall c, 0 <= c < 256 -> bytes_number [c] c) by (intros c H; apply (bn_more [] 0 c); [constructor|auto]).
  assert (N2 : forall x y, 0 <= x < 256 -> 0 <= y < 256 -> bytes_number [x; y] (256 * x + y)) by (intros x y H1 H2; apply (bn_more [x] x y); auto).
  apply (rw_more 1 2 0 (mk_xrow 0 0 0) [0] [0; 0] []); auto; [cbn; apply N1; lia|apply (N2 0 0); lia|constructor|].
  apply (rw_more 1 2 0 (mk_xrow 1 258 0) [1] [1; 2] []); auto; [cbn; apply N1; lia|apply (N2 1 2); lia|constructor|].
  apply (rw_more 1 2 0 (mk_xrow 2 1 0) [2] [0; 1] []); auto; [cbn; apply N1; lia|apply (N2 0 1); lia|constructor|].
  apply (rw_more 1 2 0 (mk_xrow 7 1 0) [7] [0; 1] []); auto; [cbn; apply N1; lia|apply (N2 0 1); lia|constructor|]. constructor.
Qed.
Example C105_case : exists rows data,
  xstream_text (xs_dict [(B "/Size", PInt 6)]) [0; 1; 2; 3; 4; 5] rows data /\
  xstream_text (xs_dict [(B "/Index", PList [PInt 3; PInt 1; PInt 8; PInt 3])]) [3; 8; 9; 10] rows data /\
  Forall (fun x => xr_type x = 2 -> xr_two x <> 0) rows /\
  exists r1 r2, parse_xref_stream_raw (xs_dict [(B "/Size", PInt 6)]) (Some data) = Ok r1 /\
    parse_xref_stream_raw (xs_dict [(B "/Index", PList [PInt 3; PInt 1; PInt 8; PInt 3])]) (Some data) = Ok r2 /\
    map (fun l => (xs_num l, xs_free l, xs_env l, xs_off l)) r1 = [(0, true, None, 0); (1, false, None, 258); (2, false, Some 1, 0)] /\
    map (fun l => (xs_num l, xs_free l, xs_env l, xs_off l)) r2 = [(3, true, None, 0); (8, false, None, 258); (9, false, Some 1, 0)].
Proof.
  eexists _, _. split; [|split; [|split]].
  - exists 1%nat, 2%nat, 0%nat. split; [lia|]. split; [reflexivity|]. split; [right; exists 6%nat; repeat split; lia|]. split; [exact case_rows|cbn; lia].
  - exists 1%nat, 2%nat, 0%nat. split; [lia|]. split; [reflexivity|]. split; [left|split; [exact case_rows|cbn; lia]]. eexists. split; [reflexivity|].
    apply (ix_more 3 1 _ [8; 9; 10]); [lia|]. apply (ix_more 8 3 _ []); [lia|constructor].
  - repeat constructor; cbn; lia.
  - eexists _, _. split; [vm_compute; reflexivity|]. split; [vm_compute; reflexivity|]. split; vm_compute; reflexivity.
Qed.
