(* The metadata of a squashed document *)
From Coq Require Import String.
From Verif Require Import PyBase Model_Filters Model_Objects Model_Filestruct Model_Docstruct Model_Api.
From Verif Require Import Spec_Objects Spec_Filters Spec_Filestruct Spec_Docstruct Spec_Calls.
From Verif Require Import Facts_Base Facts_Doc.
Section WithZlib.
Context {ZL : Zlib}.

Lemma squash_shape d s d1 : squash d = Ok (Some s, d1) -> exists e row r objs v,
  n_del e = false /\ s = mk_doc [SDict e :: row] (PDict [(K_Root, r)] :: objs) [mk_datum None None (Some (PvDummy v))].
Proof.
  unfold squash. intros H. destruct (last_row d) as [row| |]; cbn [bind] in H; try discriminate H.
  destruct (map_res cell_env row); cbn [bind] in H; try discriminate H. destruct (first_xsn d) as [x| |]; cbn [bind] in H; try discriminate H.
  unfold defragment_map in H. destruct (defrag 0 (skipn 1 row)) as [[ni m]| |]; cbn [bind] in H; try discriminate H.
  set (e0 := with_dver (Some 0) (with_over (Some 0) (ient0 0 0))) in H.
  assert (X : exists e, n_del e = false /\ (if truthy x then upd_slot (SDict e0 :: ni) 0 (with_xsn x) else Ok (SDict e0 :: ni)) = Ok (SDict e :: ni)).
  { destruct (truthy x); [exists (with_xsn x e0)|exists e0]; split; reflexivity. }
  destruct X as (e & DE & X). rewrite X in H. cbn [bind] in H. clear X.
  repeat match type of H with
  | bind ?r _ = Ok _ => destruct r as [?| |] eqn:?; cbn [bind] in H; [|discriminate H|discriminate H]
  | (let (_, _) := ?p in _) = Ok _ => destruct p
  | (match ?l with [] => _ | _ :: _ => _ end) = Ok _ => destruct l; [discriminate H|]
  end.
  injection H as <- <-. cbn [deep_ref_retarget map]. do 5 eexists. split; [exact DE|reflexivity].
Qed.

Lemma squash_metadata d s d1 : squash d = Ok (Some s, d1) -> exists s1, metadata s = Ok (map (fun k => (k, None)) info_keys, s1).
Proof.
  intros H. destruct (squash_shape d s d1 H) as (e & row & r & objs & v & DE & ->). eexists. unfold metadata, info, trailer, get_object, last_row, fdata_at.
  cbn -[memoize]. unfold memoize. cbn -[trailers]. rewrite DE. reflexivity.
Qed.

(* only documents without metadata keep it *)
Lemma squash_keeps d s d1 m d2 : squash d = Ok (Some s, d1) -> metadata d = Ok (m, d2) ->
  ((exists s1, metadata s = Ok (m, s1)) <-> Forall (fun e => snd e = None) m).
Proof.
  intros H M. destruct (squash_metadata d s d1 H) as (s1 & E). split.
  - intros (s2 & E2). rewrite E in E2. injection E2 as <- _. repeat (constructor; [reflexivity|]). constructor.
  - intros F. exists s1. rewrite E. do 2 f_equal. clear - M F. unfold metadata in M.
    destruct (info d) as [[o di]| |]; cbn [bind] in M; try discriminate M.
    destruct (if obj_truthy o then _ else _) as [i| |]; cbn [bind] in M; try discriminate M.
    change info_keys with (map (skipn 1) METADATA_ATTRS). revert di m d2 M F. generalize METADATA_ATTRS.
    induction l as [|k l IH]; intros di m d2 M F; cbn [metadata_of map] in *.
    + injection M as <- _. reflexivity.
    + destruct (get_object di _) as [[v dj]| |]; cbn [bind] in M; try discriminate M.
      destruct (match v with PNone => _ | _ => _ end) as [w| |]; cbn [bind] in M; try discriminate M.
      destruct (metadata_of dj i l) as [[m1 dk]| |] eqn:E; cbn [bind] in M; try discriminate M. injection M as <- _.
      inversion F as [|? ? F1 F2]; subst. cbn in F1. subst w. f_equal. apply (IH _ _ _ E F2).
Qed.
End WithZlib.
