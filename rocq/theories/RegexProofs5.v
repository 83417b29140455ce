(** Proofs about regular expressions: all matches. *)
From Verif Require Import Base CStr Regex RegexSpec RegexProofs RegexProofs2 RegexProofs3 RegexProofs4.

Definition span (base : nat) (c : nat * nat) : Z * Z := (Z.of_nat (base + fst c), Z.of_nat (snd c) - Z.of_nat (fst c)).
Lemma list_ext {A} : forall (x y : list A), length x = length y -> (forall k v, nth_error y k = Some v -> nth_error x k = Some v) -> x = y.
Proof.
  induction x as [|a x IH]; intros [|b y] L H; cbn [length] in L; try lia; [easy|]. f_equal; [specialize (H O b eq_refl); cbn in H; congruence|]. apply IH; [lia|]. intros k v E. exact (H (S k) v E).
Qed.
Lemma spans_all max cs z : set_spans max cs (Some z) -> Z.of_nat (length cs) = max -> length z = length cs -> z = map (span 0) cs.
Proof.
  intros H M L. apply list_ext; [now rewrite map_length|]. intros k v E. rewrite nth_error_map in E. destruct (nth_error cs k) as [(i, j)|] eqn:Ek; [|easy]. cbn in E. injection E as <-.
  rewrite (H k i j Ek). { unfold span. cbn [fst snd]. reflexivity. } assert (k < length cs)%nat by (apply nth_error_Some; congruence). lia.
Qed.
Lemma skipn_mem (s after : list Z) j : (j <= length s)%nat -> skipn j (s ++ after) = skipn j s ++ after.
Proof. intros L. rewrite skipn_app. now replace (j - length s)%nat with O by lia. Qed.

Section All.
  Context (l : list item) (t : list Z) (Sp : spells l t) (Ne : l <> []) (after : list Z) (Lk : existsb looks l = true -> after <> []).
  Let max := Z.of_nat (group_count l).
  Let buf := code 0 l.
  Lemma step_ok s base cps out f : s <> [] -> length cps = group_count l ->
    (exists i j cs cps', first_match l s i j cs /\ length cps' = group_count l /\
      match_all (S f) buf (s ++ after) (Z.of_nat (length s)) (Z.of_nat base) cps max out =
      match_all f buf (skipn j s ++ after) (Z.of_nat (length (skipn j s))) (Z.of_nat (base + j)) cps' max (out ++ map (span base) cs)) \/
    ((forall i j cs, ~ first_match l s i j cs) /\ match_all (S f) buf (s ++ after) (Z.of_nat (length s)) (Z.of_nat base) cps max out = Some (false, out)).
  Proof.
    intros N L. cbn [match_all]. destruct (Z.ltb_spec 0 (Z.of_nat (length s))) as [_|X]; [|destruct s; [easy|cbn [length] in X; lia]].
    destruct (re_match_ok l t Sp Ne s after Lk max (Some cps)) as [(i & j & cs & caps & M & E & Sh & Sp')|(Nm & caps & E & Sh)]; [cbn; unfold max; lia|..]; unfold buf; rewrite E; cbn [obind].
    - left. destruct caps as [z|]; [|easy]. cbn [shape] in Sh. cbn [negb].
      assert (Lj : (i <= j <= length s)%nat /\ length cs = group_count l). { destruct M as (S1 & M & _). eapply matches_le; [exact M|]. unfold may_start in S1. destruct (anchored l); lia. }
      destruct Lj as (Lj & Lc).
      assert (Z0 : z = map (span 0) cs) by (apply (spans_all max); [easy|unfold max; lia|lia]).
      exists i, j, cs, (map (fun x => (fst x - Z.of_nat j, snd x)) z). split; [easy|]. split; [rewrite map_length; lia|].
      rewrite Nat2Z.id, skipn_mem by lia. replace (Z.of_nat (length s) - Z.of_nat j) with (Z.of_nat (length (skipn j s))) by (rewrite skipn_length; lia). replace (Z.of_nat base + Z.of_nat j) with (Z.of_nat (base + j)) by lia.
      f_equal. f_equal. unfold max. rewrite Nat2Z.id. rewrite firstn_all2 by lia. rewrite Z0, map_map. apply map_ext. intros (a, b). unfold span. cbn [fst snd]. f_equal. lia.
    - right. split; [easy|]. destruct caps as [z|]; [easy|]. now destruct Sh.
  Qed.
  Lemma spans_base base cs : map (span 0) (map (fun c => (base + fst c, base + snd c)%nat) cs) = map (span base) cs.
  Proof. rewrite map_map. apply map_ext. intros (a, b). unfold span. cbn [fst snd]. f_equal. lia. Qed.
  Lemma match_all_tiles s base spans : tiles l s base spans -> forall f cps out, (length s < f)%nat -> length cps = group_count l ->
    match_all f buf (s ++ after) (Z.of_nat (length s)) (Z.of_nat base) cps max out = Some (true, out ++ map (span 0) spans).
  Proof.
    induction 1 as [base|s base i j cs rest N M P T IH]; intros f cps out F L; (destruct f as [|f]; [lia|]).
    - cbn [match_all length]. change (0 <? Z.of_nat 0) with false. cbn match. now rewrite app_nil_r.
    - destruct (step_ok s base cps out f N L) as [(i' & j' & cs' & cps' & M' & L' & E)|(Nm & E)]; [|now destruct (Nm i j cs)].
      destruct (first_match_fun _ _ _ _ _ _ _ _ M M') as (-> & -> & ->). rewrite E, IH; [|rewrite skipn_length; destruct s; [easy|cbn [length] in *; lia]|easy]. rewrite map_app, spans_base, app_assoc. reflexivity.
  Qed.
  Lemma match_all_stops s base spans : stops l s base spans -> forall f cps out, (length s < f)%nat -> length cps = group_count l ->
    match_all f buf (s ++ after) (Z.of_nat (length s)) (Z.of_nat base) cps max out = Some (false, out ++ map (span 0) spans).
  Proof.
    induction 1 as [s base N Nm|s base i j cs rest N M P T IH]; intros f cps out F L; (destruct f as [|f]; [lia|]).
    - destruct (step_ok s base cps out f N L) as [(i' & j' & cs' & cps' & M' & L' & E)|(_ & E)]; [now destruct (Nm i' j' cs')|]. rewrite E. now rewrite app_nil_r.
    - destruct (step_ok s base cps out f N L) as [(i' & j' & cs' & cps' & M' & L' & E)|(Nm & E)]; [|now destruct (Nm i j cs)].
      destruct (first_match_fun _ _ _ _ _ _ _ _ M M') as (-> & -> & ->). rewrite E, IH; [|rewrite skipn_length; destruct s; [easy|cbn [length] in *; lia]|easy]. rewrite map_app, spans_base, app_assoc. reflexivity.
  Qed.
  Lemma match_all_empty s i cs : s <> [] -> first_match l s i 0 cs -> forall f base cps out, length cps = group_count l ->
    match_all f buf (s ++ after) (Z.of_nat (length s)) (Z.of_nat base) cps max out = None.
  Proof.
    intros N M. induction f as [|f IH]; intros base cps out L; [easy|].
    destruct (step_ok s base cps out f N L) as [(i' & j' & cs' & cps' & M' & L' & E)|(Nm & E)]; [|now destruct (Nm i 0%nat cs)].
    destruct (first_match_fun _ _ _ _ _ _ _ _ M M') as (-> & -> & ->). rewrite E. cbn [skipn]. apply IH. easy.
  Qed.
End All.
