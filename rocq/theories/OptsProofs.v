From Coq Require Import String.
From Verif Require Import Base CStrSpec CStr CStrProofs NumSpec Num FloatSpec Float Print Node Json AdtNumSpec QuerySpec QueryProofs PropQuery Opts OptsSpec.
Open Scope Z_scope. Open Scope list_scope.

Lemma until_ok : forall s x, cstring s -> until_nul (s ++ 0 :: x) = Some s.
Proof. induction s as [|c s IH]; intros x C; [easy|]. inversion C; subst. cbn [app until_nul]. destruct (Z.eqb_spec c 0); [lia|]. rewrite IH by easy. reflexivity. Qed.
Lemma skipn_len {A} (a b : list A) : skipn (List.length a) (a ++ b) = b.
Proof. induction a; [easy|exact IHa]. Qed.
Lemma firstn_len {A} (a b : list A) : firstn (List.length a) (a ++ b) = a.
Proof. induction a as [|x a IH]; [easy|]. cbn [app List.length firstn]. now rewrite IH. Qed.

(** ** finding an option *)
Section all3.
Context {A B C : Type} (P : A -> B -> C -> Prop).
Lemma all3_len l m n : all3 P l m n -> List.length l = List.length m /\ List.length n = List.length m.
Proof. induction 1; cbn [List.length]; lia. Qed.
Lemma all3_nth l m n i b : all3 P l m n -> nth_error m i = Some b -> exists a c, nth_error l i = Some a /\ nth_error n i = Some c /\ P a b c.
Proof. intros H. revert i. induction H; intros [|i] E; try easy; [injection E as <-; exists a, c; easy|]. now apply IHall3. Qed.
End all3.

Lemma find_from_ok l T v long w m : all3 entry_holds l T v -> Forall (fun d => cstring (d_lname d) /\ forall n, d_name d = Some n -> cstring n) T -> cstring (w ++ m) -> forall k,
  (exists i d, option_of T long w i d /\ find_from l (w ++ m ++ [0]) (List.length w) long k = Some (Some (k + i)%nat)) \/
  (unknown T long w /\ find_from l (w ++ m ++ [0]) (List.length w) long k = Some None).
Proof.
  intros H. induction H as [|e d o l T v He H IH]; intros G C k.
  - right. split; [intros d []|reflexivity].
  - inversion G as [|? ? [Gl Gn] G']; subst. specialize (IH G' C (S k)). destruct He as (En & El & _).
    assert (Next : ~ called long w d -> find_from (e :: l) (w ++ m ++ [0]) (List.length w) long k = find_from l (w ++ m ++ [0]) (List.length w) long (S k) ->
      (exists i d', option_of (d :: T) long w i d' /\ find_from (e :: l) (w ++ m ++ [0]) (List.length w) long k = Some (Some (k + i)%nat)) \/
      (unknown (d :: T) long w /\ find_from (e :: l) (w ++ m ++ [0]) (List.length w) long k = Some None)).
    { intros N ->. destruct IH as [(i & d' & (On & Oc & Of) & ->)|(U & ->)].
      - left. exists (S i), d'. split; [|do 2 f_equal; lia]. split; [exact On|]. split; [exact Oc|]. intros [|j] x Lt Nx; [now injection Nx as <-|]. apply (Of j); [lia|exact Nx].
      - right. split; [|reflexivity]. intros x [<-|I]; [exact N|now apply U]. }
    assert (Cmp : forall n, cstring n -> (a <- strnlen (w ++ m ++ [0]) (List.length w) ;; b <- strlen (n ++ [0]) ;;
                   (if (a =? b)%nat then c <- strncmp (List.length w) 0 1 (n ++ [0]) (w ++ m ++ [0]) ;; Some (c =? 0) else Some false)) =
                   Some (if list_eq_dec Z.eq_dec n w then true else false)).
    { intros n Cn. rewrite app_assoc. rewrite (strnlen_ok _ _ [] C). cbn [obind]. rewrite app_length, Nat.min_r by lia.
      rewrite (strlen_ok n []) by easy. cbn [obind].
      destruct (Nat.eqb_spec (List.length w) (List.length n)) as [L|L].
      - rewrite (strncmp_ok _ _ _ _ _ _ _ Cn C). cbn [obind]. rewrite firstn_len. replace (firstn (List.length w) n) with n by (rewrite L; symmetry; apply firstn_all).
        destruct (list_eq_dec Z.eq_dec n w); [reflexivity|]. reflexivity.
      - destruct (list_eq_dec Z.eq_dec n w) as [->|]; [easy|reflexivity]. }
    destruct (if long then lname e else name e) as [n|] eqn:En'.
    + assert (Cn : cstring n). { destruct long; [rewrite El in En'; injection En' as <-; exact Gl|]. apply Gn. now rewrite <- En. }
      specialize (Cmp n Cn).
      assert (F : find_from (e :: l) (w ++ m ++ [0]) (List.length w) long k = if list_eq_dec Z.eq_dec n w then Some (Some k) else find_from l (w ++ m ++ [0]) (List.length w) long (S k)).
      { cbn [find_from]. rewrite En'.
        destruct (strnlen (w ++ m ++ [0]) (List.length w)) as [a|]; [|easy]. cbn [obind] in *. destruct (strlen (n ++ [0])) as [b|]; [|easy]. cbn [obind] in *. rewrite Cmp. cbn [obind].
        destruct (list_eq_dec Z.eq_dec n w); reflexivity. }
      destruct (list_eq_dec Z.eq_dec n w) as [->|N].
      * left. exists O, d. split; [|rewrite F; do 2 f_equal; lia]. split; [reflexivity|]. split; [|intros j x Lt; lia].
        unfold called. destruct long; [rewrite El in En'; now injection En'|congruence].
      * apply Next; [|exact F]. unfold called. destruct long; [rewrite El in En'; injection En' as <-; exact N|]. rewrite <- En, En'. now intros [= ->].
    + apply Next; [unfold called; destruct long; [congruence|rewrite <- En, En'; easy]|]. cbn [find_from]. now rewrite En'.
Qed.
Lemma option_of_fun T long w i d i' d' : option_of T long w i d -> option_of T long w i' d' -> i = i' /\ d = d'.
Proof.
  intros (A & B & C) (A' & B' & C'). assert (i = i') as ->; [|split; [easy|congruence]].
  destruct (Nat.lt_total i i') as [L|[L|L]]; [exfalso; now apply (C' i d)|easy|exfalso; now apply (C i' d')].
Qed.
Lemma find_ok o T st long w m i d : holds o T st -> cstring (w ++ m) -> option_of T long w i d -> opts_find o (w ++ m ++ [0]) (List.length w) long = Some (Some i).
Proof.
  intros (G & H & _) C Of. destruct (find_from_ok _ _ _ long w m H (proj1 G) C O) as [(j & d' & O' & E)|(U & _)].
  - destruct (option_of_fun _ _ _ _ _ _ _ Of O') as (<- & _). exact E.
  - destruct Of as (N & Cd & _). exfalso. apply nth_error_In in N. now apply (U d).
Qed.
Lemma find_none o T st long w m : holds o T st -> cstring (w ++ m) -> unknown T long w -> opts_find o (w ++ m ++ [0]) (List.length w) long = Some None.
Proof.
  intros (G & H & _) C U. destruct (find_from_ok _ _ _ long w m H (proj1 G) C O) as [(j & d' & (N & Cd & _) & _)|(_ & E)]; [|exact E].
  exfalso. apply nth_error_In in N. now apply (U d').
Qed.
Lemma option_or_unknown T long w : Forall (fun d => cstring (d_lname d) /\ forall n, d_name d = Some n -> cstring n) T -> (exists i d, option_of T long w i d) \/ unknown T long w.
Proof.
  induction T as [|d T IH]; intros G; [right; intros d []|]. inversion G; subst.
  assert (D : called long w d \/ ~ called long w d).
  { unfold called. destruct long; [destruct (list_eq_dec Z.eq_dec (d_lname d) w); [now left|now right]|]. destruct (d_name d) as [n|]; [|now right]. destruct (list_eq_dec Z.eq_dec n w) as [->|N]; [now left|right; congruence]. }
  destruct D as [D|D].
  - left. exists O, d. split; [reflexivity|]. split; [exact D|]. intros; lia.
  - destruct IH as [(i & x & A & B & C)|U]; [easy| |].
    + left. exists (S i), x. split; [exact A|]. split; [exact B|]. intros [|j] y Lt Ny; [now injection Ny as <-|]. apply (C j); [lia|exact Ny].
    + right. intros x [<-|I]; [exact D|now apply U].
Qed.

(** ** values *)
Definition conv (e : entry) (b : list Z) : option oval :=
  match ty e with
  | OString => s <- until_nul b ;; Some (Text s)
  | OFloat => ' (x, _) <- str_to_f64 b ;; Some (Real x)
  | OInt => ' (x, _) <- str_to_i64 b 10 ;; Some (Int x)
  | OFlag => Some (val e)
  end.
Lemma index_any w : cstring w -> exists z, exists neg r ds, w = (if neg : bool then [45] else []) ++ r /\ (neg = false -> forall q, r <> 45 :: q) /\ leading ds r /\ z = signed neg (number 10 ds).
Proof.
  intros C. destruct w as [|c w]; [|destruct (Z.eqb_spec c 45) as [->|N]].
  - destruct (leading_exists [] C) as (ds & H). exists (signed false (number 10 ds)), false, [], ds. now repeat (split; [easy|]).
  - inversion C as [|? ? _ C']; subst. destruct (leading_exists w C') as (ds & H). exists (signed true (number 10 ds)), true, w, ds. now repeat (split; [easy|]).
  - destruct (leading_exists _ C) as (ds & H). exists (signed false (number 10 ds)), false, (c :: w), ds. split; [easy|]. split; [|split; [exact H|easy]]. intros _ q [= -> _]. easy.
Qed.
Lemma number_abs neg ds : Forall dig ds -> Z.abs (signed neg (number 10 ds)) = number 10 ds.
Proof.
  intros D. pose proof (number_pos ds D). destruct neg; cbn [signed]; lia.
Qed.
Lemma conv_ok e d v s y : entry_holds e d v -> cstring s -> (conv e (s ++ [0]) = Some y <-> reads (d_ty d) s y).
Proof.
  intros (_ & _ & T & F & _) C. unfold conv, reads. rewrite T in *. destruct (d_ty d).
  - rewrite until_ok by easy. cbn [obind]. split; [now intros [= <-]|now intros ->].
  - destruct (str_to_f64 (s ++ [0])) as [[x r]|]; cbn [obind]; split; try easy.
    + intros [= <-]. now exists x, r.
    + intros (x' & r' & [= -> ->] & ->). reflexivity.
    + intros (x' & r' & E & _). easy.
  - rewrite (F eq_refl). split; congruence.
  - destruct (index_any s C) as (z & I). destruct (index_ok s z I []) as (Ok & Bad).
    destruct I as (neg & r & ds & Es & Hm & L & Ez).
    assert (Ab : Z.abs z = number 10 ds) by (rewrite Ez; apply number_abs; apply L).
    destruct (Z.lt_ge_cases (Z.abs z) (2^63)) as [Lt|Ge].
    + destruct (Ok Lt) as (m & ->). cbn [obind]. split.
      * intros [= <-]. exists z. split; [|easy]. exists neg, r, ds. repeat (split; [easy|]). split; [lia|easy].
      * intros (i & I' & ->). do 2 f_equal. destruct (Ok Lt) as (m1 & E1).
        destruct I' as (neg' & r' & ds' & Es' & Hm' & L' & Lt' & Ei).
        destruct (index_ok s i ltac:(exists neg', r', ds'; easy) []) as (Ok' & _).
        assert (Ab' : Z.abs i = number 10 ds') by (rewrite Ei; apply number_abs; apply L'). destruct (Ok' ltac:(lia)) as (m2 & E2). congruence.
    + rewrite (Bad Ge). cbn [obind]. split; [easy|]. intros (i & I' & ->).
      destruct I' as (neg' & r' & ds' & Es' & Hm' & L' & Lt' & Ei).
      destruct (index_ok s i ltac:(exists neg', r', ds'; easy) []) as (Ok' & _).
      assert (Ab' : Z.abs i = number 10 ds') by (rewrite Ei; apply number_abs; apply L'). destruct (Ok' ltac:(lia)) as (m2 & E2). rewrite (Bad Ge) in E2. easy.
Qed.

Lemma upd_ok l T v i d e f y : all3 entry_holds l T v -> nth_error T i = Some d -> nth_error l i = Some e -> (entry_holds (f e) d (Some y)) -> all3 entry_holds (upd l i f) T (set v i y).
Proof.
  intros H. revert i. induction H as [|a b c l T v Hab H IH]; intros [|i] ET EL F; try easy; cbn in ET, EL.
  - injection ET as ->. injection EL as ->. cbn [upd set firstn skipn app]. now constructor.
  - cbn [upd]. unfold set. cbn [firstn skipn app]. constructor; [exact Hab|]. now apply IH.
Qed.
Lemma without_total i q : exists q', without i q q'.
Proof.
  induction q as [|j q (q' & IH)]; [exists []; left; easy|]. destruct IH as [(N & ->)|(a & b & -> & N & ->)].
  - destruct (Nat.eq_dec j i) as [->|D]; [exists q; right; exists [], q; easy|]. exists (j :: q). left. split; [|easy]. intros [E|I]; [congruence|easy].
  - exists (j :: a ++ b). right. exists (j :: a), b. easy.
Qed.
Definition ptrs (g : nat) (q : list nat) : list (nat * nat) := rev (map (fun i => (g, i)) q).
Lemma ptrs_app g a b : ptrs g (a ++ b) = ptrs g b ++ ptrs g a.
Proof. unfold ptrs. rewrite map_app. apply rev_app_distr. Qed.
Lemma drop_none o T v i d : all3 entry_holds (entries o) T v -> good T -> nth_error T i = Some d -> forall q rest, Forall (fun j => (j < List.length T)%nat) q -> ~ In i q ->
  drop_positioned o (Some (d_lname d)) (ptrs (era o) q ++ rest) = r <- drop_positioned o (Some (d_lname d)) rest ;; Some (ptrs (era o) q ++ r).
Proof.
  intros H (G & Nd) Ei q. induction q as [|j q IH] using rev_ind; intros rest F N.
  - cbn [ptrs map rev app]. destruct (drop_positioned _ _ rest); reflexivity.
  - rewrite ptrs_app. cbn [ptrs map rev app]. fold (ptrs (era o) q). cbn [drop_positioned].
    apply Forall_app in F. destruct F as (F & Fj). inversion Fj as [|? ? Lj _]; subst.
    destruct (nth_error T j) as [dj|] eqn:Ej; [|apply nth_error_None in Ej; lia].
    destruct (all3_nth _ _ _ _ _ _ H Ej) as (e & c & Ee & _ & (_ & El & _)). unfold deref. cbn [fst snd]. rewrite Nat.eqb_refl, Ee. cbn [obind]. rewrite El. cbn [obind].
    rewrite Forall_forall in G. destruct (G d (nth_error_In _ _ Ei)) as (Cd & _). destruct (G dj (nth_error_In _ _ Ej)) as (Cj & _).
    destruct (strcmp_ok (d_lname dj) (d_lname d) [] [] Cj Cd) as (r & -> & Z0 & _). cbn [obind].
    assert (Nij : r <> 0).
    { intros R. apply N. apply in_or_app. right. left. apply Z0 in R.
      assert (E1 : nth_error (map d_lname T) j = Some (d_lname dj)) by now apply map_nth_error.
      assert (E2 : nth_error (map d_lname T) i = Some (d_lname d)) by now apply map_nth_error.
      eapply (proj1 (NoDup_nth_error _)); [exact Nd|apply nth_error_Some; congruence|congruence]. }
    destruct (Z.eqb_spec r 0); [easy|]. rewrite IH; [|exact F|intros I; apply N, in_or_app; now left].
    destruct (drop_positioned o (Some (d_lname d)) rest); reflexivity.
Qed.
Lemma drop_ok o T v i d q q' : all3 entry_holds (entries o) T v -> good T -> nth_error T i = Some d -> Forall (fun j => (j < List.length T)%nat) q -> without i q q' ->
  drop_positioned o (Some (d_lname d)) (ptrs (era o) q) = Some (ptrs (era o) q').
Proof.
  intros H G Ei F W. destruct W as [(N & ->)|(a & b & -> & N & ->)].
  - pose proof (drop_none o T v i d H G Ei q [] F N) as E. cbn [drop_positioned obind] in E. rewrite !app_nil_r in E. exact E.
  - rewrite !ptrs_app. apply Forall_app in F. destruct F as (Fa & Fb). inversion Fb as [|? ? Li Fb']; subst.
    change (i :: b) with ([i] ++ b). rewrite ptrs_app, <- app_assoc. rewrite (drop_none o T v i d H G Ei b) by easy.
    cbn [ptrs map rev app drop_positioned].
    destruct (all3_nth _ _ _ _ _ _ H Ei) as (e & c & Ee & _ & (_ & El & _)). unfold deref. cbn [fst snd]. rewrite Nat.eqb_refl, Ee. cbn [obind]. rewrite El. cbn [obind].
    destruct G as (G & _). rewrite Forall_forall in G. destruct (G d (nth_error_In _ _ Ei)) as (Cd & _).
    destruct (strcmp_ok (d_lname d) (d_lname d) [] [] Cd Cd) as (r & -> & Z0 & _). cbn [obind]. rewrite (proj2 Z0 eq_refl). reflexivity.
Qed.

Lemma set_value_ok o T st i d s y q : holds o T st -> nth_error T i = Some d -> cstring s -> reads (d_ty d) s y -> without i (queue st) q ->
  exists o', set_value o i (s ++ [0]) = Some o' /\ holds o' T (State (set (given st) i y) q (wrong st)).
Proof.
  intros (G & H & F & P & Er) Ei C R W. destruct (all3_nth _ _ _ _ _ _ H Ei) as (e & c & Ee & _ & He). unfold set_value. rewrite Ee. cbn [obind].
  pose proof (proj2 (conv_ok e d c s y He C) R) as Cv. unfold conv in Cv. rewrite Cv. cbn [obind]. 
  set (f := fun e0 : entry => Entry (name e0) (lname e0) (desc e0) (ty e0) true (pos e0) y). pose proof He as (E1 & E2 & E3 & E4 & E5). 
  assert (H' : all3 entry_holds (upd (entries o) i f) T (set (given st) i y)).
  { apply (upd_ok _ _ _ _ d e); try easy. unfold f, entry_holds. cbn. repeat (split; [easy|]). split; [|easy]. intros Tf. rewrite E3 in Tf. unfold reads in R. now rewrite Tf in R. }
  set (o1 := set_entries o (upd (entries o) i f)). change (positioned o1) with (positioned o). rewrite E2, P. change (era o) with (era o1). fold (ptrs (era o1) (queue st)).
  rewrite (drop_ok o1 T (set (given st) i y) i d (queue st) q) by easy. cbn [obind]. eexists. split; [reflexivity|].
  split; [exact G|]. split; [exact H'|]. split; [|split; [reflexivity|exact Er]].
  cbn [queue]. destruct W as [(_ & ->)|(a & b & E & _ & ->)]; [exact F|]. rewrite E in F. apply Forall_app in F. destruct F as (Fa & Fb). inversion Fb; subst. apply Forall_app. now split.
Qed.
Lemma set_value_none o T st i d s : holds o T st -> nth_error T i = Some d -> cstring s -> (forall y, ~ reads (d_ty d) s y) -> set_value o i (s ++ [0]) = None.
Proof.
  intros (G & H & F & P & Er) Ei C R. destruct (all3_nth _ _ _ _ _ _ H Ei) as (e & c & Ee & _ & He). unfold set_value. rewrite Ee. cbn [obind].
  destruct (conv e (s ++ [0])) as [y|] eqn:Cv; [apply (conv_ok e d c s y He C) in Cv; exfalso; now apply (R y)|]. unfold conv in Cv. now rewrite Cv.
Qed.
Lemma reads_dec t s : cstring s -> (exists y, reads t s y) \/ forall y, ~ reads t s y.
Proof.
  intros C. pose (e := Entry None (Some []) [] t false false NoVal). pose (d := Decl None [] t).
  assert (He : entry_holds e d None) by (repeat split).
  destruct (conv e (s ++ [0])) as [y|] eqn:Cv.
  - left. exists y. now apply (conv_ok e d None s y He C).
  - right. intros y R. apply (conv_ok e d None s y He C) in R. congruence.
Qed.
