(* Decision procedures for the hypotheses about packed and compressed documents, used in the
   examples *)
From Coq Require Import String Sorted ZifyBool ZifyNat.
From Verif Require Import PyBase Model_Filters Model_Objects Model_Filestruct Model_Text Model_Docstruct Model_Api.
From Verif Require Import Spec_Objects Spec_Filestruct Spec_Docstruct Spec_Pages Spec_Squash Spec_Calls Spec_Save Spec_Packed.
From Verif Require Import Facts_Squash Facts_Base Facts_Obj Facts_Xstm Facts_Revision Facts_Doc Facts_Edit Facts_Checks Facts_Concat.

Definition name_chars (s : bytes) : bool :=
  forallb (fun c => (0 <=? c) && (c <? 128) && negb (inb c [0; 9; 10; 12; 13; 32; 40; 41; 60; 62; 91; 93; 123; 125; 47; 37])) s.
Definition nameb' (s : bytes) : bool := match s with 47 :: r => name_chars r | _ => false end.
Fixpoint nodupk (l : list bytes) : bool := match l with [] => true | k :: r => negb (existsb (beqb k) r) && nodupk r end.
(* hexadecimal strings, and literal strings without parentheses, backslashes and brackets *)
Definition inner (a z : Z) (s : bytes) : option bytes :=
  match s with
  | c :: r => match rev r with c' :: b => if (c =? a) && (c' =? z) then Some (rev b) else None | [] => None end
  | [] => None
  end.
Definition hexb (s : bytes) : bool :=
  match inner 60 62 s with
  | Some b => forallb (fun c => ((48 <=? c) && (c <=? 57)) || ((65 <=? c) && (c <=? 70)) || ((97 <=? c) && (c <=? 102))) b
  | None => false
  end.
Definition litb (s : bytes) : bool :=
  match inner 40 41 s with Some b => forallb (fun c => negb (inb c [40; 41; 92; 91; 93; 60; 62])) b | None => false end.
Fixpoint wfb (o : obj) : bool :=
  match o with
  | PBytes s => hexb s || litb s
  | PBool _ | PInt _ => true
  | PStr s => nameb' s
  | PRef g _ => g =? 0
  | PList l => forallb wfb l
  | PDict d => nodupk (map fst d) && (fix go (d : dict) : bool := match d with [] => true | (k, v) :: r => nameb' k && wfb v && go r end) d
  | _ => false
  end.
Lemma nameb_tok s : nameb' s = true -> name_tok s.
Proof.
  destruct s as [|c s]; [discriminate|]. destruct (Z.eq_dec c 47) as [->|N]; [apply name_ok|]. intro E. exfalso. unfold nameb' in E.
  destruct c as [|p|p]; try discriminate. do 6 (destruct p as [p|p|]; try discriminate). congruence.
Qed.
Lemma nodupk_ok l : nodupk l = true -> NoDup l.
Proof.
  induction l as [|k l IH]; intro H; [constructor|]. cbn [nodupk] in H. apply andb_true_iff in H as [H1 H2]. constructor; auto. intro I. apply negb_true_iff in H1. rewrite <- not_true_iff_false in H1. apply H1. apply existsb_exists. exists k. split; auto. apply beqb_refl.
Qed.
Lemma inner_ok a z s b : inner a z s = Some b -> s = a :: b ++ [z].
Proof.
  unfold inner. destruct s as [|c r]; [discriminate|]. destruct (rev r) as [|c' q] eqn:R; [discriminate|].
  destruct ((c =? a) && (c' =? z)) eqn:E; [|discriminate]. intro H. injection H as <-. apply andb_true_iff in E as [E1 E2]. apply Z.eqb_eq in E1, E2. subst. f_equal.
  rewrite <- (rev_involutive r), R. reflexivity.
Qed.
Lemma hexb_ok s : hexb s = true -> hex_tok s.
Proof.
  unfold hexb. destruct (inner 60 62 s) as [b|] eqn:E; [|discriminate]. intro H. exists b. split; [apply inner_ok; auto|].
  rewrite forallb_forall in H. rewrite Forall_forall. intros c I. specialize (H c I). left. unfold hexdigit, decdigit. lia.
Qed.
Lemma plain_lit b : Forall (fun c => c <> 40 /\ c <> 41 /\ c <> 92) b -> litbody b.
Proof. induction 1 as [|c b (P & Q & R) _ IH]; constructor; auto. Qed.
Lemma litb_ok s : litb s = true -> lit_tok s /\ embeddable s.
Proof.
  unfold litb. destruct (inner 40 41 s) as [b|] eqn:E; [|discriminate]. intro H. apply inner_ok in E.
  assert (A : Forall (fun c => c <> 40 /\ c <> 41 /\ c <> 92 /\ c <> 91 /\ c <> 93 /\ c <> 60 /\ c <> 62) b).
  { rewrite forallb_forall in H. rewrite Forall_forall. intros c I. specialize (H c I). cbn [inb] in H. unfold inb in H. cbn [existsb] in H. lia. }
  assert (N : forall c, c = 60 \/ c = 62 -> ~ In c s).
  { intros c Hc I. rewrite E in I. destruct I as [<-|I]; [lia|]. apply in_app_or in I as [I|[<-|[]]]; [|lia]. rewrite Forall_forall in A. specialize (A c I). lia. }
  split; [exists b; split; auto; apply plain_lit; eapply Forall_impl; [|exact A]; cbn; intros; lia|].
  split; [|split].
  - intros (p & q & Q). apply (N 60); [lia|]. rewrite Q. apply in_or_app. right. left. reflexivity.
  - intros (p & q & Q). apply (N 62); [lia|]. rewrite Q. apply in_or_app. right. left. reflexivity.
  - right. exists b. split; auto. eapply Forall_impl; [|exact A]; cbn; intros; lia.
Qed.
Lemma wfb_ok o : wfb o = true -> wfv o.
Proof.
  induction o as [| | | | | |g n|l IH|d IH|x s e IH] using obj_ind'; cbn [wfb]; intro H; try discriminate; try (constructor; fail).
  - apply wf_name. apply nameb_tok. auto.
  - apply orb_true_iff in H as [H|H]; [apply wf_hex, hexb_ok; auto|]. apply litb_ok in H as [H1 H2]. apply wf_lit; auto.
  - constructor. lia.
  - constructor. rewrite forallb_forall in H. rewrite Forall_forall in *. intros x I. apply IH; auto.
  - apply andb_true_iff in H as [H1 H2]. constructor; [apply nodupk_ok; auto|]. clear H1. induction d as [|[k v] d IHd]; [constructor|]. inversion IH as [|? ? P Q]; subst. cbn [snd] in P.
    apply andb_true_iff in H2 as [H2 H3]. apply andb_true_iff in H2 as [H1 H2]. constructor; [split; [apply nameb_tok; auto|apply P; auto]|]. apply IHd; auto.
Qed.
Definition topb (o : obj) : bool := wfb o && match o with PRef _ _ => false | _ => true end.
Lemma topb_ok o : topb o = true -> wf_top o.
Proof. unfold topb. intro H. apply andb_true_iff in H as [H1 H2]. apply wt_val; [apply wfb_ok; auto|]. intros g n ->. discriminate. Qed.

(* p occurs in s *)
Fixpoint occursb (p s : bytes) : bool := starts p s || match s with [] => false | _ :: r => occursb p r end.
Lemma occursb_ok p s : occursb p s = false -> ~ occurs p s.
Proof.
  intros H (a & b & E). revert s H E. induction a as [|x a IH]; intros s H E.
  - cbn [app] in E. subst s. assert (starts p (p ++ b) = true) by (unfold starts; rewrite firstn_app, firstn_all, Nat.sub_diag; cbn [firstn]; rewrite app_nil_r; apply beqb_refl). destruct (p ++ b); cbn [occursb] in H; rewrite H0 in H; discriminate.
  - subst s. cbn [app occursb] in H. apply orb_false_iff in H as [_ H]. eapply IH; eauto.
Qed.
Definition cleanb (e : bytes) : bool := negb (beqb e []) && negb (occursb W_endstream e) && negb (last e 0 =? 13).
Lemma cleanb_ok e : cleanb e = true -> clean e.
Proof.
  unfold cleanb, clean. intro H. apply andb_true_iff in H as [H H3]. apply andb_true_iff in H as [H1 H2]. split; [intros ->; discriminate|]. split; [apply occursb_ok; apply negb_true_iff; auto|]. lia.
Qed.

Section WithZlib.
Context {ZL : Zlib}.
Definition simplyb (d : dict) : bool :=
  match dget K_DecodeParms d with Some _ => false | None => true end &&
  match dget K_Filter d with None => true | Some (PStr f) => beqb f (B "/FlateDecode") || beqb f (B "/ASCIIHexDecode") || beqb f (B "/ASCII85Decode") | _ => false end.
Lemma simplyb_ok d : simplyb d = true -> simply_filtered d.
Proof.
  unfold simplyb, simply_filtered. intro H. apply andb_true_iff in H as [H1 H2]. split; [destruct (dget K_DecodeParms d); [discriminate|auto]|]. destruct (dget K_Filter d) as [[]|]; try discriminate; auto.
  apply orb_true_iff in H2 as [H2|H2]; [apply orb_true_iff in H2 as [H2|H2]|]; apply beqb_eq in H2; subst s; auto.
Qed.
Definition soundb' (v : obj) : bool :=
  match v with
  | PStream x (Some c) (Some e) => wfb (PDict x) && forallb (fun z => (0 <=? z) && (z <? 256)) c && simplyb x &&
      match decode_stream (Some e) x with Ok (Some c') => beqb c' c | _ => false end
  | _ => false
  end.
Lemma soundb_ok' v : soundb' v = true -> sound_stream v.
Proof.
  destruct v as [| | | | | | | | |x [c|] [e|]]; try discriminate. cbn [soundb']. intro H. apply andb_true_iff in H as [H H4]. apply andb_true_iff in H as [H H3]. apply andb_true_iff in H as [H1 H2].
  exists x, c, e. split; auto. split; [apply wfb_ok; auto|]. split; [rewrite forallb_forall in H2; apply Forall_forall; intros z I; apply H2 in I; lia|]. split; [apply simplyb_ok; auto|].
  destruct (decode_stream (Some e) x) as [[c'|]| |]; try discriminate. apply beqb_eq in H4. congruence.
Qed.
Definition compressibleb (d : doc) : bool :=
  match last_row d with
  | Ok row => forallb (fun n => match pyget row n with
      | Ok (SDict e) => n_del e || match value d n with Ok v => topb v || soundb' v && negb (is_objstm v) | _ => true end
      | _ => true end) (nums row)
  | _ => false
  end && editableb d && squashable d && rootb d && match first_xsn d with Ok None => true | _ => false end.
Lemma compressibleb_ok d c cat : compressibleb d = true -> catalog_at d c cat -> compressible d c cat.
Proof.
  intros H CA. unfold compressibleb in H. apply andb_true_iff in H as [H H5]. apply andb_true_iff in H as [H H4]. apply andb_true_iff in H as [H H3]. apply andb_true_iff in H as [H1 H2].
  constructor; auto.
  - apply editableb_ok; auto.
  - apply (squashable_ok d H3).
  - apply rootb_ok; auto.
  - destruct (first_xsn d) as [[x|]| |]; try discriminate. auto.
  - intros r n v NM V. destruct (last_row d) as [row| |] eqn:L; try discriminate. apply (names_row d row r n (last_open _ _ L)) in NM as (N & e & C & D & _). rewrite forallb_forall in H1.
    pose proof (cell_range _ _ _ C) as R. specialize (H1 n). assert (I : In n (nums row)). { unfold nums. apply in_zseq. lia. } apply H1 in I. rewrite (proj2 (pyget_cell row n _ ltac:(lia)) C) in I. rewrite D, V in I. cbn [orb] in I.
    apply orb_true_iff in I as [I|I]; [left; apply topb_ok; auto|]. apply andb_true_iff in I as [I1 I2]. right. split; [apply soundb_ok'; auto|]. destruct (is_objstm v); [discriminate|auto].
Qed.
Definition stored_cleanb (d : doc) (m : nat) : bool :=
  forallb (fun n => match nth_error (d_cache d) n with Some (PStream _ _ (Some e)) => cleanb e | _ => true end) (seq 0 (S m)).
Lemma stored_cleanb_ok d m : stored_cleanb d m = true -> stored_clean d (Z.of_nat m).
Proof.
  intros H n x s e N [_ C]. unfold stored_cleanb in H. rewrite forallb_forall in H. specialize (H (Z.to_nat n)). rewrite C in H. apply cleanb_ok. apply H. apply in_seq. lia.
Qed.
Definition completesb (o : obj) : bool :=
  match finalize_stream o with
  | Ok (PStream _ (Some s) (Some e)) => forallb (fun z => (0 <=? z) && (z <? 256)) s && cleanb e
  | _ => true
  end.
Lemma completesb_ok o : completesb o = true -> completes_clean o.
Proof.
  intros H d s e E. unfold completesb in H. rewrite E in H. apply andb_true_iff in H as [H1 H2]. split; [|apply cleanb_ok; auto]. rewrite forallb_forall in H1. apply Forall_forall. intros z I. apply H1 in I. lia.
Qed.
Definition xref_cleanb (d : doc) (F : bytes) : bool :=
  match nth_error (d_cache d) 0 with
  | Some (PDict t) => match dget K_Prev t, dget K_Length t with
      | Some (PInt x), Some (PInt l) => negb (l =? 1) && (let k := Z.to_nat (l - 1) in cleanb (firstn k (skipn (length F - length (file_end x) - k) F)))
      | _, _ => true end
  | _ => true
  end.
Lemma xref_cleanb_ok d F : xref_cleanb d F = true -> xref_clean d F.
Proof.
  intros H t x l [_ C] P L. change (Z.to_nat 0) with 0%nat in C. unfold xref_cleanb in H. rewrite C, P, L in H. apply andb_true_iff in H as [H1 H2]. split; [lia|]. intros a e E EL. apply cleanb_ok. cbv zeta in H2.
  replace (Z.to_nat (l - 1)) with (length e) in H2 by (unfold blen in EL; lia). replace (length F - length (file_end x) - length e)%nat with (length a) in H2 by (rewrite E, !app_length; lia).
  rewrite E, skipn_app, skipn_all, Nat.sub_diag in H2. cbn [skipn app] in H2. rewrite firstn_app, firstn_all, Nat.sub_diag in H2. cbn [firstn] in H2. rewrite app_nil_r in H2. auto.
Qed.
Definition packableb (d : doc) (env : Z) : bool :=
  match d_index d, d_data d with
  | [SDict e0 :: row'], [mk_datum None None (Some p)] =>
      let row := SDict e0 :: row' in
      Nat.eqb (length (d_cache d)) (length row) &&
      match n_env e0, n_xsn e0, n_xt e0 with None, Some z, None => (z =? -1) && negb (n_del e0) | _, _, _ => false end &&
      existsb (fun s => match s with SDict e => match n_env e with Some z => z =? env | None => false end | _ => false end) row' &&
      forallb (fun n => match nth_error row n, nth_error (d_cache d) n with
        | Some (SDict e), Some o => (n_gen e =? 0) && negb (n_del e) &&
            match n_env e with
            | None => (Z.of_nat n =? env) || topb o || match o with PStream _ _ (Some en) => soundb' o && cleanb en && negb (is_objstm o) | _ => false end
            | Some z => (z =? env) && negb (Z.of_nat n =? env) && topb o
            end
        | _, _ => false end) (seq 1 (length row')) &&
      match nth_error (d_cache d) (Z.to_nat env) with
      | Some (PStream sd (Some []) _) => (0 <? env) && wfb (PDict sd) && match dget K_Type sd with Some (PStr s) => beqb s V_ObjStm | _ => false end &&
          negb (dhas K_First sd) && negb (dhas K_N sd) && negb (dhas K_FirstLine sd) && simplyb sd
      | _ => false end &&
      match nth_error (d_cache d) 0 with
      | Some (PDict t) => wfb (PDict t) && negb (dhas K_Prev t) && negb (dhas K_XRefStm t) && simplyb t
      | _ => false end
  | _, _ => false
  end.
Lemma dhas_none k d : negb (dhas k d) = true -> dget k d = None.
Proof. unfold dhas. destruct (dget k d); [discriminate|auto]. Qed.
Ltac ands H := repeat match type of H with (_ && _)%bool = true => let H' := fresh H in apply andb_true_iff in H as [H H'] end.
Lemma packableb_ok d env : packableb d env = true -> packable d env.
Proof.
  unfold packableb. destruct (d_index d) as [|[|[|e0|] row'] [|]] eqn:DI; try discriminate. destruct (d_data d) as [|[[|] [|] [p|]] [|]] eqn:DD; try discriminate.
  intro H. set (row := SDict e0 :: row') in *. apply andb_true_iff in H as [H HT]. apply andb_true_iff in H as [H HS]. apply andb_true_iff in H as [H HC]. apply andb_true_iff in H as [H HE]. apply andb_true_iff in H as [HL H0].
  constructor.
  - exists row, p. split; auto. split; auto. split; [apply Nat.eqb_eq; auto|]. split; [|split].
    + exists e0. split; [split; [lia|reflexivity]|]. destruct (n_env e0); try discriminate. destruct (n_xsn e0) as [z|]; try discriminate. destruct (n_xt e0); try discriminate. apply andb_true_iff in H0 as [A1 A2]. split; auto. split; [f_equal; lia|]. split; auto. destruct (n_del e0); [discriminate|auto].
    + apply existsb_exists in HE as (s & I & E). apply In_nth_error in I as [k K]. destruct s as [|e|]; try discriminate. exists (Z.of_nat (S k)), e. split; [split; [lia|rewrite Nat2Z.id; exact K]|]. destruct (n_env e) as [z|]; try discriminate. f_equal. lia.
    + intros n s N C. pose proof (cell_range _ _ _ C) as R. rewrite forallb_forall in HC. assert (I : In (Z.to_nat n) (seq 1 (length row'))) by (apply in_seq; cbn [row length] in R; lia). apply HC in I. clear HC. destruct C as [_ C]. change (nth_error (SDict e0 :: row') (Z.to_nat n)) with (nth_error row (Z.to_nat n)) in I. rewrite C in I. destruct s as [|e|]; try discriminate.
      destruct (nth_error (d_cache d) (Z.to_nat n)) as [o|] eqn:O; try discriminate. apply andb_true_iff in I as [I I3]. apply andb_true_iff in I as [I1 I2]. exists e, o. split; auto. split; [lia|]. split; [destruct (n_del e); [discriminate|auto]|]. split; [split; [lia|auto]|].
      destruct (n_env e) as [z|].
      * right. apply andb_true_iff in I3 as [I3 I5]. apply andb_true_iff in I3 as [I3 I4]. split; [lia|]. split; [f_equal; lia|apply topb_ok; auto].
      * left. split; auto. apply orb_true_iff in I3 as [I3|I3]; [apply orb_true_iff in I3 as [I3|I3]; [left; lia|]|]; right.
        -- split; [constructor; apply topb_ok; auto|]. apply topb_ok in I3. destruct o; auto. inversion I3 as [? W ?|]; inversion W.
        -- destruct o as [| | | | | | | | |x s [en|]]; try discriminate. apply andb_true_iff in I3 as [I3 I5]. apply andb_true_iff in I3 as [I3 I4]. split; [|destruct (is_objstm _); [discriminate|auto]]. apply soundb_ok' in I3 as (x' & c & e' & Q & W & _ & SF & DE). injection Q as -> -> ->.
           apply cleanb_ok in I4 as (A1 & A2 & A3). apply st_stream; auto. intros y Q. destruct SF as (_ & [F1|[F1|[F1|F1]]]); rewrite F1 in Q; discriminate.
  - destruct (nth_error (d_cache d) (Z.to_nat env)) as [[| | | | | | | | |sd [[|]|] en]|] eqn:O; try discriminate.
    apply andb_true_iff in HS as [HS A7]. apply andb_true_iff in HS as [HS A6]. apply andb_true_iff in HS as [HS A5]. apply andb_true_iff in HS as [HS A4]. apply andb_true_iff in HS as [HS A3]. apply andb_true_iff in HS as [A1 A2].
    exists sd, en. split; [lia|]. split; [split; [lia|auto]|]. split; [apply wfb_ok; auto|]. split; [destruct (dget K_Type sd) as [[]|]; try discriminate; apply beqb_eq in A3; congruence|]. split; [apply dhas_none; auto|]. split; [apply dhas_none; auto|]. split; [apply dhas_none; auto|apply simplyb_ok; auto].
  - destruct (nth_error (d_cache d) 0) as [[| | | | | | | |t|]|] eqn:O; try discriminate. apply andb_true_iff in HT as [HT A4]. apply andb_true_iff in HT as [HT A3]. apply andb_true_iff in HT as [A1 A2].
    exists t. split; [split; [lia|exact O]|]. split; [apply wfb_ok; auto|]. split; [apply dhas_none; auto|]. split; [apply dhas_none; auto|apply simplyb_ok; auto].
Qed.
End WithZlib.
