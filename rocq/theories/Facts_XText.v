(* Xref streams as other programs write them *)
From Coq Require Import String ZifyBool ZifyNat.
From Verif Require Import PyBase Model_Filters Model_Objects Model_Filestruct Spec_Objects Spec_Docstruct Spec_Syntax Spec_Streams.
From Verif Require Import Facts_Base.

Lemma number_be s z : bytes_number s z -> from_be s = z.
Proof. induction 1 as [|s z c N IH C]; [reflexivity|]. unfold from_be in *. rewrite fold_left_app. cbn [fold_left]. rewrite IH. reflexivity. Qed.
Lemma zseq_seq n : forall o k, zseq (o + Z.of_nat k) n = map (fun j => o + Z.of_nat j) (seq k n).
Proof. induction n as [|n IH]; intros o k; [reflexivity|]. cbn [zseq seq map]. f_equal. rewrite <- IH. f_equal. lia. Qed.
Lemma index_read l nums : index_of l nums -> exists zs, int_list l = Ok zs /\ forall sec, exists r, expand_xref_index_from sec zs = Ok r /\ map fst r = nums.
Proof.
  induction 1 as [|first n l r N I (zs & E & H)].
  - exists []. split; [reflexivity|]. intro. exists []. auto.
  - exists (first :: Z.of_nat n :: zs). split; [cbn [int_list]; rewrite E; reflexivity|]. intro sec. destruct (H (sec + 1)) as (t & ET & MT).
    cbn [expand_xref_index_from]. rewrite ET. cbn [bind]. eexists. split; [reflexivity|]. cbn [map]. rewrite map_app, map_map, map_id, MT. cbn [fst].
    destruct n as [|n]; [lia|]. cbn [seq map app]. replace (Z.to_nat (Z.of_nat (S n) - 1)) with n by lia. replace (first + Z.of_nat 0) with first by lia.
    change (first + 1) with (first + Z.of_nat 1). rewrite zseq_seq. reflexivity.
Qed.
Lemma cols_read s1 s2 s3 rest : exists p, xs_cols [length s1; length s2; length s3] (s1 ++ s2 ++ s3 ++ rest) = ([from_be s1; from_be s2; from_be s3], p, rest).
Proof. cbn [xs_cols]. repeat (rewrite ?firstn_app_len, ?skipn_app_len). eauto. Qed.

Definition line_of (l : xsline) := (xs_num l, xs_free l, xs_env l, xs_off l, xs_gen l).
Lemma rows_found a b c rows data : (0 < a)%nat -> rows_text a b c rows data -> forall nums, (length rows <= length nums)%nat ->
  exists r, xs_loop [a; b; c] nums data = Ok r /\ map line_of r = flat_map (fun p => row_says (fst p) (snd p)) (combine (map fst nums) rows).
Proof.
  intros PA R. induction R as [|x s1 s2 s3 l s L1 L2 L3 N1 N2 N3 R IH]; intros nums LN.
  - exists []. split; [destruct nums as [|[? ?] ?]; reflexivity|]. destruct nums; reflexivity.
  - destruct nums as [|[num sec] nums]; [cbn in LN; lia|]. destruct (IH nums ltac:(cbn in LN; lia)) as (r & E & M).
    destruct (cols_read s1 s2 s3 s) as (p & EC). rewrite L1, L2, L3 in EC. rewrite (number_be _ _ N1), (number_be _ _ N2), (number_be _ _ N3) in EC.
    cbn [map combine flat_map fst snd]. destruct s1 as [|c0 s1]; [cbn in L1; lia|]. cbn [app] in *. cbn [xs_loop]. rewrite EC. rewrite <- M. unfold row_says.
    destruct (xr_type x =? 0) eqn:T0; [|destruct (xr_type x =? 1) eqn:T1; [|destruct (xr_type x =? 2) eqn:T2]]; cbn [orb]; rewrite ?E; cbn [bind]; eexists; (split; [reflexivity|]); reflexivity.
Qed.
Theorem xstream_found d nums rows data : xstream_text d nums rows data ->
  exists r, parse_xref_stream_raw d (Some data) = Ok r /\ map line_of r = flat_map (fun p => row_says (fst p) (snd p)) (combine nums rows).
Proof.
  intros (a & b & c & PA & DW & DI & R & L). unfold parse_xref_stream_raw. change (dget K_W d) with (dget (B "/W") d). change (dget K_Index d) with (dget (B "/Index") d). change (dget K_Size d) with (dget (B "/Size") d). rewrite DW. cbn [of_opt bind int_list].
  assert (X : exists rng ns, match dget (B "/Index") d with Some (PList l) => int_list l | Some _ => Exc EUnsupported
     | None => match dget (B "/Size") d with Some (PInt n) => Ok [0; n] | Some _ => Exc EUnsupported | None => Exc EKeyError end end = Ok rng /\ expand_xref_index rng = Ok ns /\ map fst ns = nums).
  { destruct DI as [(l & -> & I)|(n & PN & -> & -> & ->)].
    - destruct (index_read l nums I) as (zs & E & H). destruct (H 0) as (r & E2 & M). exists zs, r. auto.
    - destruct (index_read [PInt 0; PInt (Z.of_nat n)] (map Z.of_nat (seq 0 n))) as (zs & E & H).
      { rewrite <- (app_nil_r (map Z.of_nat (seq 0 n))). rewrite (map_ext Z.of_nat (fun k => 0 + Z.of_nat k)) by lia. constructor; auto. constructor. }
      cbn in E. injection E as <-. destruct (H 0) as (r & E2 & M). eauto. }
  destruct X as (rng & ns & E1 & E2 & <-). rewrite E1. cbn [bind]. rewrite E2. cbn [bind forallb]. rewrite !(proj2 (Z.leb_le 0 _)) by lia. cbn [andb map]. rewrite !Nat2Z.id.
  apply rows_found; auto. rewrite map_length in L. auto.
Qed.

(* the entry of the index that a row gives for object n *)
Definition row_entry (n : Z) (x : xrow) : list ient :=
  if n =? 0 then [] else if xr_type x =? 1 then [with_pos (Some (AInt (xr_two x))) (ient0 n (xr_three x))]
  else if xr_type x =? 2 then [with_opos (Some (xr_three x)) (with_env (Some (xr_two x)) (with_pos (Some (ATup (xr_two x) (xr_three x))) (ient0 n 0)))] else [].
Lemma entries_found (l : list (Z * xrow)) : Forall (fun p => xr_type (snd p) = 2 -> xr_two (snd p) <> 0) l -> forall r,
  map line_of r = flat_map (fun p => row_says (fst p) (snd p)) l -> flat_map xstm_entry r = flat_map (fun p => row_entry (fst p) (snd p)) l.
Proof.
  induction 1 as [|[n x] l NZ F IH]; intros r E.
  - destruct r; [reflexivity|discriminate].
  - cbn [flat_map fst snd] in *. unfold row_says at 1 in E. unfold row_entry at 1.
    destruct (xr_type x =? 0) eqn:T0; [|destruct (xr_type x =? 1) eqn:T1; [|destruct (xr_type x =? 2) eqn:T2]].
    4: { cbn [app] in *. rewrite (IH _ E). destruct (n =? 0); reflexivity. }
    all: destruct r as [|q r]; [discriminate|]; cbn [map app] in E; injection E as E1 E2 E3 E4 E5 E; cbn [flat_map]; rewrite (IH _ E); f_equal; unfold xstm_entry; rewrite E1, E2, ?E3, ?E4, ?E5; destruct (n =? 0) eqn:N0; auto.
    + replace (xr_type x =? 1) with false by lia. replace (xr_type x =? 2) with false by lia. reflexivity.
    + specialize (NZ ltac:(lia)). cbn [truthy]. destruct (negb (xr_two x =? 0)) eqn:Q; [|lia]. reflexivity.
Qed.
Theorem xstream_index d nums rows data pos num : xstream_text d nums rows data -> Forall (fun x => xr_type x = 2 -> xr_two x <> 0) rows ->
  parse_xref_stream d (Some data) pos num = Ok (with_xsn (Some num) (with_xs (Some pos) (with_pos (Some (AInt pos)) (ient0 0 0))) :: flat_map (fun p => row_entry (fst p) (snd p)) (combine nums rows)).
Proof.
  intros X F. destruct (xstream_found _ _ _ _ X) as (r & E & M). unfold parse_xref_stream. rewrite E. cbn [bind]. rewrite (entries_found (combine nums rows)) with (r := r); auto.
  apply Forall_forall. intros [n x] I. apply in_combine_r in I. rewrite Forall_forall in F. apply (F x I).
Qed.
Lemma in_combine_nth {A C} (l : list A) (m : list C) a c : In (a, c) (combine l m) <-> exists k, nth_error l k = Some a /\ nth_error m k = Some c.
Proof.
  revert m. induction l as [|x l IH]; intros [|y m]; cbn [combine].
  1-3: split; [intros []|intros ([|k] & H1 & H2); discriminate].
  split.
  - intros [H|H]; [injection H as -> ->; exists 0%nat; auto|]. apply IH in H as (k & H). exists (S k). auto.
  - intros ([|k] & H1 & H2); [cbn in *; left; congruence|]. right. apply IH. eauto.
Qed.
Theorem xstream_entries d nums rows data pos num : xstream_text d nums rows data -> Forall (fun x => xr_type x = 2 -> xr_two x <> 0) rows ->
  exists h r, parse_xref_stream d (Some data) pos num = Ok (h :: r) /\ n_num h = 0 /\ n_pos h = Some (AInt pos) /\ n_xsn h = Some num /\
    forall e, In e r <-> exists n x, xlists nums rows n x /\ n <> 0 /\
      (xr_type x = 1 /\ e = with_pos (Some (AInt (xr_two x))) (ient0 n (xr_three x)) \/
       xr_type x = 2 /\ e = with_opos (Some (xr_three x)) (with_env (Some (xr_two x)) (with_pos (Some (ATup (xr_two x) (xr_three x))) (ient0 n 0)))).
Proof.
  intros X F. eexists _, _. split; [exact (xstream_index d nums rows data pos num X F)|]. split; [reflexivity|]. split; [reflexivity|]. split; [reflexivity|].
  intro e. rewrite in_flat_map. split.
  - intros ([n x] & I & J). cbn [fst snd] in J. apply in_combine_nth in I. exists n, x. split; [exact I|]. unfold row_entry in J. destruct (n =? 0) eqn:N0; [destruct J|]. split; [lia|].
    destruct (xr_type x =? 1) eqn:T1; [destruct J as [<-|[]]; left; split; [lia|reflexivity]|]. destruct (xr_type x =? 2) eqn:T2; [destruct J as [<-|[]]; right; split; [lia|reflexivity]|destruct J].
  - intros (n & x & (k & K) & N0 & H). exists (n, x). split; [apply in_combine_nth; eauto|]. cbn [fst snd]. unfold row_entry. replace (n =? 0) with false by lia.
    destruct H as [[-> ->]|[-> ->]]; cbn; auto.
Qed.
