(** Writing reals of documents by "%f". *)
From Coq Require Import String Reals Psatz SpecFloat.
From Verif Require Import Base CStr CStrSpec CStrProofs Num NumSpec NumProofs PropNum Float FloatSpec FloatProofs FloatProofs2 FloatProofs3.
From Verif Require Import Print PrintSpec PrintFSpec PrintProofs PrintProofs2 PrintProofs3 PrintProofs4 PropPrint Node NodeProofs AdtNumSpec AdtNumProofs AdtNumProofs2 AdtNumProofs3 AdtNumProofs4.
Open Scope string_scope. Open Scope Z_scope. Open Scope list_scope.
Set Default Timeout 120. 

Lemma numeral_len10 v t : 0 <= v < 2^64 -> numeral 10 v t -> (List.length t <= 64)%nat.
Proof.
  intros Hv (ds & C & N & ->). destruct (Z.ltb_spec v 0); [lia|]. cbn [app]. rewrite map_length. apply (canonical_len 10); [lia|easy|lia].
Qed.
Lemma digits_len vs vts : Forall (fun v => 0 <= v <= 10) vs -> Forall2 (numeral 10) vs vts -> (List.length (concat vts) <= 64 * List.length vs)%nat.
Proof.
  intros F H. induction H as [|v t vs vts N _ IH]; [cbn; lia|]. inversion F; subst. cbn [concat List.length]. rewrite app_length. specialize (IH ltac:(easy)). pose proof (numeral_len10 v t ltac:(lia) N). lia.
Qed.
Lemma body_len x r t : is_real x r -> (Rabs r < IZR (2 ^ 64))%R -> f64_body false 6 x t -> (List.length t <= 500)%nat.
Proof.
  intros (_ & F & E) B (r' & (_ & F' & E') & H). assert (r' = r) as -> by congruence.
  destruct H as [(_ & ->)|(_ & sg & w & wt & vs & vts & Hs & Hw & Nw & (Lv & Fv & _) & Nv & ->)]; [cbn; lia|].
  assert (List.length sg <= 1)%nat by (destruct Hs as [(_ & ->)|(_ & ->)]; cbn; lia).
  assert (0 <= w < 2^64) as Bw.
  { split; [apply le_IZR|apply lt_IZR; lra]. assert (-1 < IZR w)%R by (pose proof (Rabs_pos r); lra). apply IZR_le. apply (lt_IZR (-1)) in H0. lia. }
  pose proof (numeral_len10 w wt Bw Nw). pose proof (digits_len vs vts Fv Nv). rewrite !app_length. cbn [List.length]. lia.
Qed.
Lemma fprintf_f x r : is_real x r -> (Rabs r < IZR (2 ^ 64))%R -> exists t, f64_body false 6 x t /\ fprintf (asc "%f") [AF64 x] = Some t.
Proof.
  intros R B. destruct (printable_item (Flt false false Absent Absent 102 x)) as (t & (t' & Bt & E) & I).
  - repeat constructor; cbn; try lia. now exists r.
  - assert (E2 : t = t') by (rewrite E; unfold apply_width; cbn; now destruct (Datatypes.length t')). clear E. subst t'. exists t. split; [exact Bt|].
    pose proof (fprintf_items [Flt false false Absent Absent 102 x] [t] ltac:(now constructor)) as H. cbn [concat] in H. rewrite app_nil_r in H. apply H.
    pose proof (body_len x r t R B Bt). unfold PRINTF_MAXLEN. lia.
Qed.
