(* Property C111: the text of an object in the HTML view *)
From Coq Require Import String Permutation.
From Verif Require Import PyBase Model_Filters Model_Objects Model_Filestruct Model_Text Model_Graphics Model_Display.
From Verif Require Import Spec_Display Spec_View Facts_View.
Open Scope Z_scope.

(* the texts that are shown; for the objects that have one, see C80 *)
Theorem C111_view : forall row depth b o t, follow_obj row depth b o = Ok t -> view row depth b o t.
Proof. intros row depth b o. exact (follow_view row o depth b). Qed.
Print Assumptions C111_view.
Definition script_action : obj :=
  PDict [(B "/S", PStr (B "/JavaScript")); (B "/Subtype", PBool true); (B "/JS", PBytes (B "(app.alert('a <b> and a long text'))")); (B "/Type", PStr (B "/Action")); (B "/A", PList [PInt (-3); PRef 0 1])].
Definition one_row : list slot := [SNone; SDict (with_pos (Some (AInt 15)) (ient0 1 0))].
Example C111_case : follow_obj one_row 0 true script_action = Ok (B "&lt;&lt;
  /Type               <span class=""important"">/Action</span>
  /Subtype            <span class=""important"">True</span>
  /S                  <span class=""warning"">/JavaScript</span>
  <span class=""warning"">/JS                 </span>(app.alert(&#x27;a &lt;b&gt; and a long t<em> ...(truncated) </em>
  /A                  [ -3 <a href=""#idx15""><span class=""obj-link"">1 0 R</span></a> ]
&gt;&gt;").
Proof. vm_compute. reflexivity. Qed.
