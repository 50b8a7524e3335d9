(* Objects written with a space before each element, used in the examples *)
From Coq Require Import String ZifyBool ZifyNat.
From Verif Require Import PyBase Model_Filters Model_Objects Spec_Objects Spec_Syntax Spec_Files Spec_Streams.
From Verif Require Import Facts_Base Facts_Obj Facts_Syntax Facts_PackCheck.

Fixpoint words (o : obj) : bytes :=
  match o with
  | PInt n => dec_nat n
  | PStr s | PBytes s => s
  | PRef _ n => dec_nat n ++ B " 0 R"
  | PList l => [91] ++ flat_map (fun x => 32 :: words x) l ++ [93]
  | PDict d => [60; 60] ++ flat_map (fun kv => match kv with (k, v) => (32 :: k) ++ 32 :: words v end) d ++ [62; 62]
  | _ => []
  end.
(* integers that are not negative, names, references, arrays and dictionaries *)
Fixpoint wordsb (o : obj) : bool :=
  match o with
  | PInt n => 0 <=? n
  | PStr s => nameb' s
  | PRef g n => (g =? 0) && (0 <=? n)
  | PList l => forallb wordsb l
  | PDict d => nodupk (map fst d) && (fix go (d : dict) : bool := match d with [] => true | (k, v) :: r => nameb' k && wordsb v && go r end) d
  | _ => false
  end.
Lemma dec_text n : 0 <= n -> dec_nat n <> [] /\ Forall decdigit (dec_nat n) /\ decimal (dec_nat n) = n.
Proof. intro N. split; [apply dec_nat_nonnil|]. split; [exact (dec_nat_dig n N)|exact (dec_nat_val n N)]. Qed.
Lemma space_gap : gap [32].
Proof. apply gap_white; [unfold white; lia|constructor]. Qed.
Lemma nohex o : wordsb o = true -> ~ hex_tok (words o).
Proof.
  intros W (b & E & FB). destruct o as [| | n | | s | | g n | l | d |]; try discriminate; cbn [words wordsb] in *.
  - destruct (dec_text n ltac:(lia)) as (NE & FD & _). destruct (dec_nat n) as [|c r]; [congruence|]. injection E as -> _. pose proof (Forall_inv FD) as X. unfold decdigit in X. lia.
  - apply nameb_tok in W as (r & -> & _). discriminate.
  - apply andb_prop in W as [_ W]. destruct (dec_text n ltac:(lia)) as (NE & FD & _). destruct (dec_nat n) as [|c r]; [congruence|]. injection E as -> _. pose proof (Forall_inv FD) as X. unfold decdigit in X. lia.
  - destruct b as [|c b]; [discriminate|]. injection E as <- _. pose proof (Forall_inv FB) as [[X|[X|X]]|X]; unfold decdigit, white in X; lia.
Qed.
Lemma words_spelled : forall o, wordsb o = true -> spelled o (words o).
Proof.
  assert (EL : forall isd l, Forall (fun o => wordsb o = true -> spelled o (words o)) l -> forallb wordsb l = true -> elements isd l (flat_map (fun x => 32 :: words x) l)).
  { intros isd l H. induction H as [|o l H F IH]; intro W; cbn [flat_map]; [constructor; constructor|]. cbn [forallb] in W. apply andb_prop in W as [W1 W2]. change ((32 :: words o) ++ flat_map (fun x => 32 :: words x) l) with ([32] ++ words o ++ flat_map (fun x => 32 :: words x) l).
    apply el_cons; [exact space_gap|auto|auto| |intros _ HX; destruct (nohex o W1 HX)]. right. destruct l as [|o' l]; [left; auto|right]. exists 32. eexists. split; [reflexivity|left; unfold white; lia]. }
  intro o. induction o as [| | n | | s | | g n | l IH | d IH | d st en] using obj_ind'; intro W; try discriminate; cbn [words wordsb] in *.
  - destruct (dec_text n ltac:(lia)) as (NE & FD & DV). apply sp_int. exists 1, [], (dec_nat n). split; [reflexivity|]. split; [constructor|]. split; auto. split; auto. lia.
  - apply sp_name. now apply nameb_tok.
  - apply andb_prop in W as [G W]. destruct (dec_text n ltac:(lia)) as (NE & FD & DV). replace g with 0 by lia. change (B " 0 R") with ([32] ++ B "0" ++ [32] ++ B "R"). apply sp_ref; auto; try exact space_gap; try discriminate. repeat constructor.
  - change [91] with (B "["). change [93] with (B "]"). apply sp_array. auto.
  - apply andb_prop in W as [N W]. change [60; 60] with (B "<<"). change [62; 62] with (B ">>"). 
    assert (WK : forallb nameb' (map fst d) = true /\ forallb wordsb (flat_map (fun kv => [PStr (fst kv); snd kv]) d) = true).
    { clear - W. induction d as [|[k v] d IH]; [auto|]. apply andb_prop in W as [W W2]. apply andb_prop in W as [W0 W1]. destruct (IH W2) as [A1 A2]. cbn [map flat_map fst snd app forallb wordsb]. rewrite W0, W1, A1, A2. auto. }
    destruct WK as [WK WV]. replace (flat_map (fun kv => match kv with (k, v) => (32 :: k) ++ 32 :: words v end) d) with (flat_map (fun x => 32 :: words x) (flat_map (fun kv => [PStr (fst kv); snd kv]) d)).
    2:{ clear. induction d as [|[k v] d IH]; [auto|]. cbn [flat_map fst snd app words]. rewrite IH. rewrite <- !app_assoc. reflexivity. }
    apply sp_dict; [now apply nodupk_ok|apply Forall_forall; intros k I; rewrite forallb_forall in WK; apply nameb_tok; auto|]. apply EL; auto.
    clear - IH. induction IH as [|[k v] d H F IH]; [constructor|]. cbn [flat_map fst snd app]. constructor; [intro W; cbn [words wordsb] in *; apply sp_name; now apply nameb_tok|]. constructor; auto.
Qed.

Section WithZlib.
Context {ZL : Zlib}.
Lemma digs_ok s : s <> [] -> forallb (fun c => (48 <=? c) && (c <=? 57)) s = true -> digits s.
Proof. intros N H. split; auto. apply Forall_forall. intros c I. rewrite forallb_forall in H. specialize (H c I). unfold decdigit. lia. Qed.
Lemma white_line c : c = 10 \/ c = 32 -> Forall white [c].
Proof. intro H. constructor; [unfold white; lia|constructor]. Qed.
(* an indirect object on one line *)
Definition object_words (n : Z) (o : obj) : bytes := dec_nat n ++ B " 0 obj " ++ words o ++ B " endobj".
Lemma words_object n o : 0 <= n -> wordsb o = true -> (forall g n, o <> PRef g n) -> object_text n 0 o (object_words n o).
Proof.
  intros N W R. destruct (dec_text n N) as (NE & FD & DV). exists (dec_nat n), [32], (B "0"), [32], [32], (words o), [32]. split; [reflexivity|]. split; auto. split; auto. split; auto. split; [discriminate|].
  split; [apply (digs_ok (B "0")); [discriminate|reflexivity]|]. split; [reflexivity|]. pose proof (white_line 32 (or_intror eq_refl)) as WL. split; auto. split; [discriminate|]. split; auto. split; [discriminate|]. split; auto. split; [left; discriminate|].
  split; [apply co_plain; auto; now apply words_spelled|]. split; [exact space_gap|]. right. right. discriminate.
Qed.
Definition stream_words (n : Z) (d : dict) (enc : bytes) : bytes := dec_nat n ++ B " 0 obj " ++ words (PDict d) ++ B " stream" ++ [10] ++ enc ++ [13; 10] ++ B "endstream endobj".
Lemma words_stream n d enc sc : 0 <= n -> wordsb (PDict d) = true -> ~ occurs (B "endstream") enc -> (forall x, dget (B "/Filter") d <> Some (PDict x)) -> decode_stream (Some enc) d = Ok sc ->
  object_text n 0 (PStream d sc (Some enc)) (stream_words n d enc).
Proof.
  intros N W O X D. destruct (dec_text n N) as (NE & FD & DV). exists (dec_nat n), [32], (B "0"), [32], [32], (words (PDict d) ++ [32] ++ B "stream" ++ [10] ++ enc ++ [13; 10] ++ B "endstream"), [32].
  pose proof (white_line 32 (or_intror eq_refl)) as WL.
  split; [unfold stream_words; rewrite <- ?app_assoc; cbn [app]; rewrite <- ?app_assoc; reflexivity|]. split; auto. split; auto. split; auto. split; [discriminate|].
  split; [apply (digs_ok (B "0")); [discriminate|reflexivity]|]. split; [reflexivity|]. split; auto. split; [discriminate|]. split; auto. split; [discriminate|]. split; auto. split; [left; discriminate|].
  split; [apply co_stream; auto; [now apply words_spelled|left; auto]|]. split; [exact space_gap|]. right. left. eauto.
Qed.
(* objects one after the other *)
Definition row_words (l : list obj) : bytes := flat_map (fun x => 32 :: words x) l ++ [10].
Lemma words_row l : forallb (fun o => wordsb o && match o with PRef _ _ => false | _ => true end) l = true -> row_text l (row_words l).
Proof.
  unfold row_words. induction l as [|o l IH]; intro W; cbn [flat_map]; [constructor; apply white_line; auto|]. cbn [forallb] in W. apply andb_prop in W as [W W2]. apply andb_prop in W as [W1 R].
  change ((32 :: words o) ++ flat_map (fun x => 32 :: words x) l) with ([32] ++ words o ++ flat_map (fun x => 32 :: words x) l). rewrite <- !app_assoc.
  apply rt_more; [apply white_line; auto|left; split; [now apply words_spelled|intros g n ->; discriminate]|auto|]. right. destruct l as [|o' l]; eexists _, _; (split; [reflexivity|left; unfold white; lia]).
Qed.
Definition objects_words (l : list (Z * obj)) (offs : list Z) : bytes * bytes :=
  (row_words (flat_map (fun p => [PInt (fst (fst p)); PInt (snd p)]) (combine l offs)), row_words (map snd l)).
Lemma words_objects l offs : length offs = length l -> forallb (fun p => (0 <=? fst (fst p)) && (0 <=? snd p)) (combine l offs) = true ->
  forallb (fun o => wordsb o && match o with PRef _ _ => false | _ => true end) (map snd l) = true ->
  objects_text l (Z.of_nat (length (fst (objects_words l offs)))) (fst (objects_words l offs) ++ snd (objects_words l offs)).
Proof.
  intros LO H1 H2. exists offs. eexists _, _. split; [reflexivity|]. split; [reflexivity|]. split; auto. split; [|now apply words_row]. apply words_row.
  clear - H1. induction (combine l offs) as [|p q IH]; [auto|]. cbn [forallb] in H1. apply andb_prop in H1 as [H1 H2]. apply andb_prop in H1 as [A1 A2]. cbn [flat_map app forallb wordsb]. rewrite A1, A2, IH by auto. reflexivity.
Qed.
(* rows of xref streams, one byte for each field *)
Lemma byte_rows l : forallb (fun x => (0 <=? xr_type x) && (xr_type x <? 256) && (0 <=? xr_two x) && (xr_two x <? 65536) && (0 <=? xr_three x) && (xr_three x <? 256)) l = true ->
  rows_text 1 2 1 l (flat_map (fun x => [xr_type x; xr_two x / 256; xr_two x mod 256; xr_three x]) l).
Proof.
  induction l as [|x l IH]; intro H; cbn [flat_map forallb] in *; [constructor|]. apply andb_prop in H as [H H2].
  assert (BN : forall c, 0 <= c < 256 -> bytes_number [c] c) by (intros c C; change [c] with ([] ++ [c]); replace c with (256 * 0 + c) at 2 by lia; constructor; [constructor|lia]).
  change ([xr_type x; xr_two x / 256; xr_two x mod 256; xr_three x] ++ flat_map (fun x => [xr_type x; xr_two x / 256; xr_two x mod 256; xr_three x]) l)
    with ([xr_type x] ++ [xr_two x / 256; xr_two x mod 256] ++ [xr_three x] ++ flat_map (fun x => [xr_type x; xr_two x / 256; xr_two x mod 256; xr_three x]) l).
  apply rw_more; auto; try reflexivity; try (apply BN; lia). replace (xr_two x) with (256 * (xr_two x / 256) + xr_two x mod 256) at 3 by (symmetry; apply Z.div_mod; lia). change [xr_two x / 256; xr_two x mod 256] with ([xr_two x / 256] ++ [xr_two x mod 256]).
  constructor; [apply BN|apply Z.mod_pos_bound; lia]. split; [apply Z.div_pos; lia|apply Z.div_lt_upper_bound; lia].
Qed.
End WithZlib.
