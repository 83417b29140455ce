From Verif Require Import Base Utf8 Utf8Spec HashProofs Utf8Proofs.

Lemma put_ok cap out v : Z.of_nat (length out) < cap -> put cap out v = Some (out ++ [v]).
Proof. intros H. unfold put. now decs. Qed.
Lemma put8_ok cap out v w : u8 v = w -> Z.of_nat (length out) < cap -> put8 cap out v = Some (out ++ [w]).
Proof. intros <- H. now apply put_ok. Qed.
Lemma len1 {A} (out : list A) v : length (out ++ [v]) = S (length out).
Proof. rewrite app_length. cbn. lia. Qed.

(** one round on a well-formed character *)
Lemma ucs2_step_char cap out r tl : character r ->
  to_ucs2_step cap (cap - 1) (utf8 r ++ tl) out =
    if Z.of_nat (length out + length (utf16 r)) <=? cap - 1 then Some (Go tl (out ++ utf16 r)) else Some Null.
Proof.
  intros (S0 & Hz). assert (R : 0 < r <= 0x10FFFF) by (unfold scalar in S0; lia).
  unfold utf8, utf16, to_ucs2_step. rewrite Nat2Z.inj_add.
  destruct (Z.ltb_spec r 0x80) as [L1|L1].
  { cbn [app nth_error obind skipn length]. decs. cbn [length]. change (Z.of_nat 1) with 1.
    destruct (byte_tests r ltac:(unfold byte; lia)) as (-> & _). decs.
    destruct (Z.leb_spec (Z.of_nat (length out) + 1) (cap - 1)); decs; [rewrite put_ok by lia|]; easy. }
  destruct (Z.ltb_spec r 0x800) as [L2|L2].
  { cbn [app nth_error obind skipn length]. decs. cbn [length]. change (Z.of_nat 1) with 1. set (s0 := 0xC0 + r / 64). set (b1 := 0x80 + r mod 64).
    assert (H0 : 0xc2 <= s0 < 0xe0) by (unfold s0; Z.div_mod_to_equations; lia).
    assert (H1 : 0x80 <= b1 <= 0xbf) by (unfold b1; Z.div_mod_to_equations; lia).
    destruct (byte_tests s0 ltac:(unfold byte; lia)) as (-> & -> & _). rewrite cont_test by (unfold byte; lia). decs.
    rewrite land1f, land3f, shl by lia. unfold u16.
    replace ((s0 mod 32 * 2^6 + b1 mod 64) mod 2^16) with r by (unfold s0, b1; Z.div_mod_to_equations; lia).
    destruct (Z.leb_spec (Z.of_nat (length out) + 1) (cap - 1)); decs; [rewrite put_ok by lia|]; easy. }
  destruct (Z.ltb_spec r 0x10000) as [L3|L3].
  { cbn [app nth_error obind skipn length]. change (Z.of_nat 1) with 1. set (s0 := 0xE0 + r / 4096). set (b1 := 0x80 + r / 64 mod 64). set (b2 := 0x80 + r mod 64).
    assert (H0 : 0xe0 <= s0 < 0xf0) by (unfold s0; Z.div_mod_to_equations; lia).
    assert (H1 : 0x80 <= b1 <= 0xbf) by (unfold b1; Z.div_mod_to_equations; lia).
    assert (H2 : 0x80 <= b2 <= 0xbf) by (unfold b2; Z.div_mod_to_equations; lia).
    destruct (byte_tests s0 ltac:(unfold byte; lia)) as (-> & -> & -> & _). rewrite !cont_test by (unfold byte; lia).
    rewrite land0f, !land3f, !shl by lia. unfold u16.
    replace ((s0 mod 16 * 2^12 + b1 mod 64 * 2^6 + b2 mod 64) mod 2^16) with r by (unfold s0, b1, b2; Z.div_mod_to_equations; lia).
    assert (E1 : (if s0 =? 0xe0 then Some ((b1 <? 0xa0) || (b1 >? 0xbf)) else Some false) = Some false).
    { destruct (Z.eqb_spec s0 0xe0); [|easy]. assert (0xa0 <= b1) by (unfold s0, b1 in *; Z.div_mod_to_equations; lia). decs. easy. }
    assert (E2 : (if s0 =? 0xed then Some (b1 >? 0x9f) else Some false) = Some false).
    { destruct (Z.eqb_spec s0 0xed); [|easy]. assert (b1 <= 0x9f) by (unfold s0, b1, scalar in *; Z.div_mod_to_equations; lia). decs. easy. }
    rewrite E1, E2. cbn [obind]. decs.
    destruct (Z.leb_spec (Z.of_nat (length out) + 1) (cap - 1)); decs; [rewrite put_ok by lia|]; easy. }
  cbn [app nth_error obind skipn length]. change (Z.of_nat 2) with 2. set (s0 := 0xF0 + r / 262144). set (b1 := 0x80 + r / 4096 mod 64). set (b2 := 0x80 + r / 64 mod 64). set (b3 := 0x80 + r mod 64).
  assert (H0 : 0xf0 <= s0 <= 0xf4) by (unfold s0; Z.div_mod_to_equations; lia).
  assert (H1 : 0x80 <= b1 <= 0xbf) by (unfold b1; Z.div_mod_to_equations; lia).
  assert (H2 : 0x80 <= b2 <= 0xbf) by (unfold b2; Z.div_mod_to_equations; lia).
  assert (H3 : 0x80 <= b3 <= 0xbf) by (unfold b3; Z.div_mod_to_equations; lia).
  destruct (byte_tests s0 ltac:(unfold byte; lia)) as (-> & -> & -> & -> & _). rewrite !cont_test by (unfold byte; lia).
  rewrite land07, !land3f, !shl by lia.
  replace (s0 mod 8 * 2^18 + b1 mod 64 * 2^12 + b2 mod 64 * 2^6 + b3 mod 64) with r by (unfold s0, b1, b2, b3; Z.div_mod_to_equations; lia).
  assert (E1 : (if s0 =? 0xf0 then Some ((b1 <? 0x90) || (b1 >? 0xbf)) else Some false) = Some false).
  { destruct (Z.eqb_spec s0 0xf0); [|easy]. assert (0x90 <= b1) by (unfold s0, b1 in *; Z.div_mod_to_equations; lia). decs. easy. }
  assert (E2 : (if s0 =? 0xf4 then Some (b1 >? 0x8f) else Some false) = Some false).
  { destruct (Z.eqb_spec s0 0xf4); [|easy]. assert (b1 <= 0x8f) by (unfold s0, b1, scalar in *; Z.div_mod_to_equations; lia). decs. easy. }
  rewrite E1, E2. cbn [obind]. rewrite surr by lia. assert (65536 <= r / 2048 * 2048) by (Z.div_mod_to_equations; lia).
  decs. rewrite !land3ff, shr by lia.
  rewrite lord800, lordc00 by (Z.div_mod_to_equations; lia).
  replace ((r - 0x10000) / 2^10 mod 1024) with ((r - 0x10000) / 1024) by (Z.div_mod_to_equations; lia).
  destruct (Z.leb_spec (Z.of_nat (length out) + 2) (cap - 1)); decs.
  - rewrite put_ok by lia. cbn [obind]. rewrite put_ok by (rewrite len1; lia). cbn [obind]. now rewrite <- app_assoc.
  - destruct (Z.leb_spec (cap - 1) (Z.of_nat (length out))); decs; easy.
Qed.
(** and on anything else *)
Lemma ucs2_step_other cap out c r : bytes (c :: r) -> Forall (fun c => c <> 0) (c :: r) ->
  (exists u tl, character u /\ c :: r = utf8 u ++ tl) \/ to_ucs2_step cap (cap - 1) (c :: r ++ [0]) out = Some Null.
Proof.
  intros B F. inversion B as [|? ? B0 Br]; subst. inversion F as [|? ? F0 Fr]; subst. unfold byte in B0.
  destruct (Z.lt_ge_cases c 0x80) as [L|L].
  { left. exists c, r. unfold character, scalar, utf8. decs. split; [lia|easy]. }
  unfold to_ucs2_step. cbn [nth_error obind]. destruct (Z.geb (Z.of_nat (length out)) (cap - 1)); [now right|].
  destruct (byte_tests c B0) as (-> & -> & -> & -> & _).
  assert (ch : forall u, scalar u -> 0x80 <= u -> character u) by (intros u X Y; split; [easy|lia]).
  destruct (Z.lt_ge_cases c 0xc2) as [L1|L1].
  { right. destruct (Z.lt_ge_cases c 0xc0); decs; easy. }
  destruct (Z.lt_ge_cases c 0xe0) as [L2|L2].
  { decs. destruct r as [|c1 r].
    - right. cbn [app nth_error obind]. reflexivity.
    - cbn [app nth_error obind]. inversion Br as [|? ? B1 _]; subst. rewrite cont_test by easy.
      destruct ((0x80 <=? c1) && (c1 <? 0xc0)) eqn:C; [|now right]. apply andb_true_iff in C as (C1 & C2). apply Z.leb_le in C1. apply Z.ltb_lt in C2.
      left. destruct (wf2 c c1) as (X & Y & E); [lia|lia|]. eexists _, r. rewrite E. split; [apply ch; [exact X|lia]|easy]. }
  destruct (Z.lt_ge_cases c 0xf0) as [L3|L3].
  { decs. destruct r as [|c1 r].
    - right. cbn [app nth_error obind]. destruct (c =? 0xe0); [easy|]. destruct (c =? 0xed); easy.
    - cbn [app nth_error obind]. inversion Br as [|? ? B1 Br']; subst. rewrite (cont_test c1) by easy.
      destruct (if c =? 0xe0 then Some ((c1 <? 0xa0) || (c1 >? 0xbf)) else Some false) as [[]|] eqn:E1; cbn [obind]; [now right| |destruct (c =? 0xe0); easy].
      destruct (if c =? 0xed then Some (c1 >? 0x9f) else Some false) as [[]|] eqn:E2; cbn [obind]; [now right| |destruct (c =? 0xed); easy].
      destruct ((0x80 <=? c1) && (c1 <? 0xc0)) eqn:C; [|now right]. apply andb_true_iff in C as (C1 & C2). apply Z.leb_le in C1. apply Z.ltb_lt in C2.
      cbn [negb]. destruct r as [|c2 r]; [now right|]. inversion Br' as [|? ? B2 _]; subst. cbn [app nth_error obind]. rewrite cont_test by easy.
      destruct ((0x80 <=? c2) && (c2 <? 0xc0)) eqn:D; [|now right]. apply andb_true_iff in D as (D1 & D2). apply Z.leb_le in D1. apply Z.ltb_lt in D2.
      assert (lo_of c <= c1 <= hi_of c).
      { unfold lo_of, hi_of. destruct (Z.eqb_spec c 0xe0); decs.
        - injection E1 as E1. apply orb_false_iff in E1 as (E1 & _). apply Z.ltb_ge in E1. lia.
        - destruct (Z.eqb_spec c 0xed); decs; [injection E2 as E2; rewrite Z.gtb_ltb in E2; apply Z.ltb_ge in E2|]; lia. }
      left. destruct (wf3 c c1 c2) as (X & Y & E); [lia|easy|lia|]. eexists _, r. rewrite E. split; [apply ch; [exact X|lia]|easy]. }
  destruct (Z.lt_ge_cases c 0xf8) as [L4|L4]; [|right; decs; easy].
  decs. destruct (Z.gtb_spec c 0xf4) as [|L5]; [now right|].
  destruct r as [|c1 r].
  - right. cbn [app nth_error obind]. destruct (c =? 0xf0); [easy|]. destruct (c =? 0xf4); easy.
  - cbn [app nth_error obind]. inversion Br as [|? ? B1 Br']; subst. rewrite (cont_test c1) by easy.
    destruct (if c =? 0xf0 then Some ((c1 <? 0x90) || (c1 >? 0xbf)) else Some false) as [[]|] eqn:E1; cbn [obind]; [now right| |destruct (c =? 0xf0); easy].
    destruct (if c =? 0xf4 then Some (c1 >? 0x8f) else Some false) as [[]|] eqn:E2; cbn [obind]; [now right| |destruct (c =? 0xf4); easy].
    destruct ((0x80 <=? c1) && (c1 <? 0xc0)) eqn:C; [|now right]. apply andb_true_iff in C as (C1 & C2). apply Z.leb_le in C1. apply Z.ltb_lt in C2.
    cbn [negb]. destruct r as [|c2 r]; [now right|]. inversion Br' as [|? ? B2 Br'']; subst. cbn [app nth_error obind]. rewrite (cont_test c2) by easy.
    destruct ((0x80 <=? c2) && (c2 <? 0xc0)) eqn:D; [|now right]. apply andb_true_iff in D as (D1 & D2). apply Z.leb_le in D1. apply Z.ltb_lt in D2.
    cbn [negb]. destruct r as [|c3 r]; [now right|]. inversion Br'' as [|? ? B3 _]; subst. cbn [app nth_error obind]. rewrite (cont_test c3) by easy.
    destruct ((0x80 <=? c3) && (c3 <? 0xc0)) eqn:G; [|now right]. apply andb_true_iff in G as (G1 & G2). apply Z.leb_le in G1. apply Z.ltb_lt in G2.
    assert (lo_of c <= c1 <= hi_of c).
    { unfold lo_of, hi_of. destruct (Z.eqb_spec c 0xf0); decs.
      - injection E1 as E1. apply orb_false_iff in E1 as (E1 & _). apply Z.ltb_ge in E1. lia.
      - destruct (Z.eqb_spec c 0xf4); decs; [injection E2 as E2; rewrite Z.gtb_ltb in E2; apply Z.ltb_ge in E2|]; lia. }
    left. destruct (wf4 c c1 c2 c3) as (X & Y & E); [lia|easy|lia|lia|]. eexists _, r. rewrite E. split; [apply ch; [exact X|lia]|easy].
Qed.
Lemma utf8_head_nz r : character r -> exists c t, utf8 r = c :: t /\ c <> 0.
Proof.
  intros (S0 & H). assert (0 < r) by (unfold scalar in S0; lia). unfold utf8. destruct (Z.ltb_spec r 0x80); [eexists _, _; split; [reflexivity|lia]|].
  destruct (r <? 0x800); [eexists _, _; split; [reflexivity|Z.div_mod_to_equations; lia]|].
  destruct (r <? 0x10000); eexists _, _; (split; [reflexivity|Z.div_mod_to_equations; lia]).
Qed.
Lemma ucs2_loop_step f cap str out c t : str = c :: t -> c <> 0 -> to_ucs2_loop (S f) cap str out =
  (r <- to_ucs2_step cap (cap - 1) str out ;; match r with Null => Some None | Go str out => to_ucs2_loop f cap str out end).
Proof. intros -> H. cbn [to_ucs2_loop nth_error obind]. now decs. Qed.
Lemma ucs2_loop_end f cap tl out : Z.of_nat (length out) < cap -> to_ucs2_loop (S f) cap (0 :: tl) out = Some (Some (out ++ [0])).
Proof. intros H. cbn [to_ucs2_loop nth_error obind]. change (0 =? 0) with true. cbn match. now rewrite put_ok. Qed.

(** a prefix of characters is consumed one by one *)
Lemma ucs2_loop_chars cap : 0 < cap -> forall rs tl out fuel, Forall character rs -> Z.of_nat (length out) <= cap - 1 -> (length rs <= fuel)%nat ->
  to_ucs2_loop fuel cap (utf8s rs ++ tl) out =
    if Z.of_nat (length out + length (utf16s rs)) <=? cap - 1 then to_ucs2_loop (fuel - length rs) cap tl (out ++ utf16s rs) else Some None.
Proof.
  intros Hcap. induction rs as [|r rs IH]; intros tl out fuel F Hout Hf.
  - cbn [utf8s utf16s flat_map length app]. rewrite Nat.add_0_r, Nat.sub_0_r, app_nil_r. now decs.
  - inversion F as [|? ? Fr Frs]; subst. destruct fuel as [|fuel]; cbn [length] in Hf; [lia|].
    cbn [utf8s utf16s flat_map]. fold (utf8s rs) (utf16s rs). rewrite <- app_assoc. rewrite (app_length (utf16 r)).
    destruct (utf8_head_nz r Fr) as (c & t & E & Hc).
    rewrite (ucs2_loop_step fuel cap _ out c (t ++ utf8s rs ++ tl)) by (rewrite ?E; easy).
    rewrite ucs2_step_char by easy.
    destruct (Z.leb_spec (Z.of_nat (length out + length (utf16 r))) (cap - 1)); cbn [obind].
    + rewrite IH by (rewrite ?app_length; easy || lia). rewrite app_length, <- app_assoc. cbn [length Nat.sub]. now rewrite Nat.add_assoc.
    + now decs.
Qed.
Lemma utf8s_app a b : utf8s (a ++ b) = utf8s a ++ utf8s b.
Proof. apply flat_map_app. Qed.
Lemma utf8s_length rs : (length rs <= length (utf8s rs))%nat.
Proof. induction rs as [|r rs IH]; [easy|]. cbn [utf8s flat_map length]. fold (utf8s rs). rewrite app_length. pose proof (utf8_len r). lia. Qed.
Lemma ucs2_ok cap rs tl : Forall character rs -> 0 < cap ->
  utf8_to_ucs2 cap (utf8s rs ++ 0 :: tl) = Some (if Z.of_nat (length (utf16s rs)) <=? cap - 1 then Some (utf16s rs ++ [0]) else None).
Proof.
  intros F Hcap. unfold utf8_to_ucs2. pose proof (utf8s_length rs). rewrite ucs2_loop_chars; try easy; try (cbn [length]; lia); [|rewrite app_length; lia].
  cbn [length app Nat.add]. destruct (Z.leb_spec (Z.of_nat (length (utf16s rs))) (cap - 1)); [|easy].
  rewrite app_length. cbn [length]. replace (S _ - length rs)%nat with (S (length (utf8s rs) + S (length tl) - length rs)) by lia.
  rewrite ucs2_loop_end by lia. easy.
Qed.
(** every byte string is a maximal run of characters followed by nothing or by something
    that is not a character *)
Definition stuck (t : list Z) : Prop := forall u tl, character u -> t <> utf8 u ++ tl.
Lemma split_chars : forall s, bytes s -> Forall (fun c => c <> 0) s -> exists rs t, Forall character rs /\ s = utf8s rs ++ t /\ stuck t.
Proof.
  intros s. remember (length s) as n eqn:Hn. revert s Hn. induction n as [n IH] using (well_founded_induction lt_wf). intros s -> B F.
  destruct s as [|c r].
  { exists [], []. split; [constructor|]. split; [easy|]. intros u tl _ E. pose proof (utf8_len u) as L. destruct (utf8 u); [cbn in L; lia|easy]. }
  destruct (ucs2_step_other 4 [] c r B F) as [(u & tl & Hu & E)|E].
  - destruct (IH (length tl)) with (s := tl) as (rs & t & Frs & Et & St); try easy.
    + rewrite E, app_length. pose proof (utf8_len u). lia.
    + rewrite E in B. now apply Forall_app in B.
    + rewrite E in F. now apply Forall_app in F.
    + exists (u :: rs), t. split; [now constructor|]. split; [|easy]. rewrite E, Et. cbn [utf8s flat_map]. now rewrite <- app_assoc.
  - exists [], (c :: r). split; [constructor|]. split; [easy|]. intros u tl Hu E'.
    change (c :: r ++ [0]) with ((c :: r) ++ [0]) in E. rewrite E', <- app_assoc in E. rewrite ucs2_step_char in E by easy.
    cbn [length Nat.add] in E. assert (length (utf16 u) <= 2)%nat by (unfold utf16; destruct (u <? 65536); cbn; lia).
    destruct (Z.leb_spec (Z.of_nat (length (utf16 u))) (4 - 1)); [easy|lia].
Qed.
Lemma ucs2_bad cap rs t : Forall character rs -> 0 < cap -> bytes t -> Forall (fun c => c <> 0) t -> stuck t -> t <> [] ->
  utf8_to_ucs2 cap (utf8s rs ++ t ++ [0]) = Some None.
Proof.
  intros F Hcap B Hz St Hne. unfold utf8_to_ucs2. pose proof (utf8s_length rs). rewrite ucs2_loop_chars; try easy; try (cbn [length]; lia); [|rewrite app_length; lia].
  cbn [length app Nat.add]. destruct (Z.leb_spec (Z.of_nat (length (utf16s rs))) (cap - 1)); [|easy].
  rewrite !app_length. replace (S _ - length rs)%nat with (S (length (utf8s rs) + (length t + length [0%Z]) - length rs)) by lia.
  destruct t as [|c r]; [easy|]. inversion Hz; subst. cbn [app]. rewrite (ucs2_loop_step _ _ _ _ c (r ++ [0])) by easy.
  destruct (ucs2_step_other cap (utf16s rs) c r B Hz) as [(u & tl & Hu & E)|E]; [now apply St in E|]. now rewrite E.
Qed.

(** ** UCS-2 to UTF-8 *)
Lemma utf8_step_char cap out r tl : character r ->
  to_utf8_step cap (cap - 1) (utf16 r ++ tl) out =
    if Z.of_nat (length out + length (utf8 r)) <=? cap - 1 then Some (Go tl (out ++ utf8 r)) else Some Null.
Proof.
  intros (S0 & Hz). assert (R : 0 < r <= 0x10FFFF) by (unfold scalar in S0; lia). unfold utf8, utf16, to_utf8_step. rewrite Nat2Z.inj_add.
  destruct (Z.ltb_spec r 0x10000) as [L|L].
  - cbn [app nth_error obind skipn]. destruct (Z.ltb_spec r 0x80) as [L1|L1].
    { decs. cbn [length]. change (Z.of_nat 1) with 1. destruct (Z.leb_spec (Z.of_nat (length out) + 1) (cap - 1)); decs; [|easy].
      rewrite (put8_ok _ _ _ r) by (lia || apply Z.mod_small; lia). easy. }
    destruct (Z.ltb_spec r 0x800) as [L2|L2].
    { decs. cbn [length]. change (Z.of_nat 2) with 2. rewrite land3f, shr by lia. destruct (Z.leb_spec (Z.of_nat (length out) + 2) (cap - 1)); decs; [|easy].
      rewrite (put8_ok _ _ _ (0xC0 + r / 64)) by (lia || apply Z.mod_small; Z.div_mod_to_equations; lia). cbn [obind].
      rewrite (put8_ok _ _ _ (0x80 + r mod 64)) by (rewrite ?len1; lia || apply Z.mod_small; Z.div_mod_to_equations; lia). cbn [obind]. now rewrite <- app_assoc. }
    decs. cbn [length]. change (Z.of_nat 3) with 3. rewrite !land3f, !shr by lia.
    replace ((r >=? 0xd800) && (r <? 0xdc00)) with false by (unfold scalar in S0; symmetry; destruct (Z.geb_spec r 0xd800); [|easy]; decs; easy).
    replace ((r >=? 0xdc00) && (r <? 0xe000)) with false by (unfold scalar in S0; symmetry; destruct (Z.geb_spec r 0xdc00); [|easy]; decs; easy).
    destruct (Z.leb_spec (Z.of_nat (length out) + 3) (cap - 1)); decs; [|easy].
    rewrite (put8_ok _ _ _ (0xE0 + r / 4096)) by (lia || apply Z.mod_small; Z.div_mod_to_equations; lia). cbn [obind].
    rewrite (put8_ok _ _ _ (0x80 + r / 64 mod 64)) by (rewrite ?len1; lia || apply Z.mod_small; Z.div_mod_to_equations; lia). cbn [obind].
    rewrite (put8_ok _ _ _ (0x80 + r mod 64)) by (rewrite ?len1; lia || apply Z.mod_small; Z.div_mod_to_equations; lia). cbn [obind]. now rewrite <- !app_assoc.
  - cbn [app nth_error obind skipn]. set (h := 0xD800 + (r - 0x10000) / 1024). set (l := 0xDC00 + (r - 0x10000) mod 1024).
    assert (Hh : 0xd800 <= h < 0xdc00) by (unfold h; Z.div_mod_to_equations; lia). decs. cbn [length]. change (Z.of_nat 4) with 4.
    rewrite shl by lia. replace ((h - 0xd800) * 2^10 + (l - 0xdc00) + 0x10000) with r by (unfold h, l; Z.div_mod_to_equations; lia).
    rewrite !land3f, !shr by lia.
    destruct (Z.leb_spec (Z.of_nat (length out) + 4) (cap - 1)); decs; [|easy].
    rewrite (put8_ok _ _ _ (0xF0 + r / 262144)) by (lia || apply Z.mod_small; Z.div_mod_to_equations; lia). cbn [obind].
    rewrite (put8_ok _ _ _ (0x80 + r / 4096 mod 64)) by (rewrite ?len1; lia || apply Z.mod_small; Z.div_mod_to_equations; lia). cbn [obind].
    rewrite (put8_ok _ _ _ (0x80 + r / 64 mod 64)) by (rewrite ?len1; lia || apply Z.mod_small; Z.div_mod_to_equations; lia). cbn [obind].
    rewrite (put8_ok _ _ _ (0x80 + r mod 64)) by (rewrite ?len1; lia || apply Z.mod_small; Z.div_mod_to_equations; lia). cbn [obind]. now rewrite <- !app_assoc.
Qed.
Lemma utf16_head_nz r : character r -> exists c t, utf16 r = c :: t /\ c <> 0.
Proof.
  intros (S0 & H). assert (0 < r) by (unfold scalar in S0; lia). unfold utf16. destruct (Z.ltb_spec r 0x10000); eexists _, _; (split; [reflexivity|]); [lia|Z.div_mod_to_equations; lia].
Qed.
Lemma utf8_loop_step f cap str out c t : str = c :: t -> c <> 0 -> to_utf8_loop (S f) cap str out =
  (r <- to_utf8_step cap (cap - 1) str out ;; match r with Null => Some None | Go str out => to_utf8_loop f cap str out end).
Proof. intros -> H. cbn [to_utf8_loop nth_error obind]. now decs. Qed.
Lemma utf8_loop_end f cap tl out : Z.of_nat (length out) < cap -> to_utf8_loop (S f) cap (0 :: tl) out = Some (Some (out ++ [0])).
Proof. intros H. cbn [to_utf8_loop nth_error obind]. change (0 =? 0) with true. cbn match. now rewrite put_ok. Qed.
Lemma utf8_loop_chars cap : 0 < cap -> forall rs tl out fuel, Forall character rs -> Z.of_nat (length out) <= cap - 1 -> (length rs <= fuel)%nat ->
  to_utf8_loop fuel cap (utf16s rs ++ tl) out =
    if Z.of_nat (length out + length (utf8s rs)) <=? cap - 1 then to_utf8_loop (fuel - length rs) cap tl (out ++ utf8s rs) else Some None.
Proof.
  intros Hcap. induction rs as [|r rs IH]; intros tl out fuel F Hout Hf.
  - cbn [utf8s utf16s flat_map length app]. rewrite Nat.add_0_r, Nat.sub_0_r, app_nil_r. now decs.
  - inversion F as [|? ? Fr Frs]; subst. destruct fuel as [|fuel]; cbn [length] in Hf; [lia|].
    cbn [utf8s utf16s flat_map]. fold (utf8s rs) (utf16s rs). rewrite <- app_assoc. rewrite (app_length (utf8 r)).
    destruct (utf16_head_nz r Fr) as (c & t & E & Hc).
    rewrite (utf8_loop_step fuel cap _ out c (t ++ utf16s rs ++ tl)) by (rewrite ?E; easy).
    rewrite utf8_step_char by easy.
    destruct (Z.leb_spec (Z.of_nat (length out + length (utf8 r))) (cap - 1)); cbn [obind].
    + rewrite IH by (rewrite ?app_length; easy || lia). rewrite app_length, <- app_assoc. cbn [length Nat.sub]. now rewrite Nat.add_assoc.
    + now decs.
Qed.
Lemma utf16_len r : (1 <= length (utf16 r) <= 2)%nat.
Proof. unfold utf16. destruct (r <? 0x10000); cbn; lia. Qed.
Lemma utf16s_length rs : (length rs <= length (utf16s rs))%nat.
Proof. induction rs as [|r rs IH]; [easy|]. cbn [utf16s flat_map length]. fold (utf16s rs). rewrite app_length. pose proof (utf16_len r). lia. Qed.
Lemma utf8_ok cap rs tl : Forall character rs -> 0 < cap ->
  ucs2_to_utf8 cap (utf16s rs ++ 0 :: tl) = Some (if Z.of_nat (length (utf8s rs)) <=? cap - 1 then Some (utf8s rs ++ [0]) else None).
Proof.
  intros F Hcap. unfold ucs2_to_utf8. pose proof (utf16s_length rs). rewrite utf8_loop_chars; try easy; try (cbn [length]; lia); [|rewrite app_length; lia].
  cbn [length app Nat.add]. destruct (Z.leb_spec (Z.of_nat (length (utf8s rs))) (cap - 1)); [|easy].
  rewrite app_length. cbn [length]. replace (S _ - length rs)%nat with (S (length (utf16s rs) + S (length tl) - length rs)) by lia.
  rewrite utf8_loop_end by lia. easy.
Qed.
(** a high surrogate right before the terminator makes the loop step over it *)
Lemma utf8_lone_high cap rs h : Forall character rs -> 0xd800 <= h < 0xdc00 -> Z.of_nat (length (utf8s rs)) + 4 <= cap - 1 ->
  ucs2_to_utf8 cap (utf16s rs ++ [h; 0]) = None.
Proof.
  intros F Hh Hcap. unfold ucs2_to_utf8. pose proof (utf16s_length rs). rewrite utf8_loop_chars; try easy; try (cbn [length]; lia); [|rewrite app_length; lia].
  cbn [length app Nat.add]. decs. rewrite app_length. cbn [length].
  replace (S _ - length rs)%nat with (S (S (length (utf16s rs) + 1 - length rs))) by lia.
  rewrite (utf8_loop_step _ _ _ _ h [0]) by (easy || lia). unfold to_utf8_step. cbn [nth_error obind]. decs.
  unfold put8. rewrite put_ok by lia. cbn [obind]. rewrite put_ok by (rewrite len1; lia). cbn [obind]. rewrite put_ok by (rewrite !len1; lia). cbn [obind].
  rewrite put_ok by (rewrite !len1; lia). reflexivity.
Qed.

(** ** lengths *)
Lemma lead_utf8 r : character r -> exists c t, utf8 r = c :: t /\ c <> 0 /\ lead_inc c = Some (length (utf8 r)).
Proof.
  intros (S0 & Hz). assert (R : 0 < r <= 0x10FFFF) by (unfold scalar in S0; lia). unfold utf8, lead_inc.
  destruct (Z.ltb_spec r 0x80). { exists r, []. decs. easy. }
  destruct (Z.ltb_spec r 0x800).
  { assert (H1 : 0xc0 <= 0xc0 + r / 64 < 0xe0) by (Z.div_mod_to_equations; lia). eexists _, _. split; [reflexivity|]. split; [lia|].
    destruct (byte_tests (0xc0 + r / 64) ltac:(unfold byte; lia)) as (_ & -> & _). decs. easy. }
  destruct (Z.ltb_spec r 0x10000).
  { assert (H2 : 0xe0 <= 0xe0 + r / 4096 < 0xf0) by (Z.div_mod_to_equations; lia). eexists _, _. split; [reflexivity|]. split; [lia|].
    destruct (byte_tests (0xe0 + r / 4096) ltac:(unfold byte; lia)) as (_ & -> & -> & _). decs. easy. }
  assert (H2 : 0xf0 <= 0xf0 + r / 262144 < 0xf8) by (Z.div_mod_to_equations; lia). eexists _, _. split; [reflexivity|]. split; [lia|].
  destruct (byte_tests (0xf0 + r / 262144) ltac:(unfold byte; lia)) as (_ & -> & -> & -> & _). decs. easy.
Qed.
Lemma skipn_all_app {A} (a b : list A) : skipn (length a) (a ++ b) = b.
Proof. induction a; easy. Qed.
Lemma strlen_chars : forall rs tl fuel n, Forall character rs -> (length rs <= fuel)%nat ->
  utf8_strlen_loop fuel (utf8s rs ++ tl) n = utf8_strlen_loop (fuel - length rs) tl (n + Z.of_nat (length rs)).
Proof.
  induction rs as [|r rs IH]; intros tl fuel n F Hf.
  - cbn [utf8s flat_map length app]. rewrite Nat.sub_0_r. f_equal. lia.
  - inversion F as [|? ? Fr Frs]; subst. destruct fuel as [|fuel]; cbn [length] in Hf; [lia|].
    cbn [utf8s flat_map]. fold (utf8s rs). rewrite <- app_assoc. destruct (lead_utf8 r Fr) as (c & t & E & Hc & Hl).
    cbn [utf8_strlen_loop]. replace (nth_error (utf8 r ++ utf8s rs ++ tl) 0) with (Some c) by now rewrite E. cbn [obind]. decs. rewrite Hl, skipn_all_app.
    rewrite IH by (easy || lia). cbn [length Nat.sub]. f_equal. lia.
Qed.
Lemma strlen_ok rs tl : Forall character rs -> utf8_strlen (utf8s rs ++ 0 :: tl) = Some (Z.of_nat (length rs)).
Proof.
  intros F. unfold utf8_strlen. pose proof (utf8s_length rs). rewrite strlen_chars by (easy || rewrite app_length; lia).
  rewrite app_length. cbn [length]. replace (S _ - length rs)%nat with (S (length (utf8s rs) + S (length tl) - length rs)) by lia. reflexivity.
Qed.
Lemma strlen_bad rs c tl : Forall character rs -> 0x80 <= c < 0xc0 \/ 0xf8 <= c < 0x100 -> utf8_strlen (utf8s rs ++ c :: tl) = Some (-1).
Proof.
  intros F Hc. unfold utf8_strlen. pose proof (utf8s_length rs). rewrite strlen_chars by (easy || rewrite app_length; lia).
  rewrite app_length. cbn [length]. replace (S _ - length rs)%nat with (S (length (utf8s rs) + S (length tl) - length rs)) by lia.
  cbn [utf8_strlen_loop nth_error obind]. unfold lead_inc. destruct (byte_tests c ltac:(unfold byte; lia)) as (_ & -> & -> & -> & _). destruct Hc; decs; easy.
Qed.
(** a lead byte that promises more than is there steps over the terminator *)
Lemma strlen_truncated rs c t k : Forall character rs -> c <> 0 -> lead_inc c = Some k -> (length t + 1 < k)%nat ->
  utf8_strlen (utf8s rs ++ c :: t ++ [0]) = None.
Proof.
  intros F Hc Hl Hk. unfold utf8_strlen. pose proof (utf8s_length rs). rewrite strlen_chars by (easy || rewrite app_length; lia).
  rewrite app_length. cbn [length]. rewrite app_length. cbn [length].
  replace (S _ - length rs)%nat with (S (S (length (utf8s rs) + S (length t) - length rs))) by lia.
  cbn [utf8_strlen_loop nth_error obind]. decs. rewrite Hl. destruct k as [|k]; [lia|]. cbn [skipn].
  rewrite skipn_all2 by (rewrite app_length; cbn [length]; lia). reflexivity.
Qed.
Lemma strnlen_ok : forall rs tl fuel max n, Forall character rs -> (length rs < fuel)%nat ->
  utf8_strnlen_loop fuel (utf8s rs ++ 0 :: tl) max n = Some (n + starting_before max rs).
Proof.
  induction rs as [|r rs IH]; intros tl fuel max n F Hf; (destruct fuel as [|fuel]; [lia|]).
  - cbn. f_equal. lia.
  - inversion F as [|? ? Fr Frs]; subst. cbn [length] in Hf. cbn [utf8s flat_map]. fold (utf8s rs). rewrite <- app_assoc. destruct (lead_utf8 r Fr) as (c & t & E & Hc & Hl).
    cbn [utf8_strnlen_loop]. replace (nth_error (utf8 r ++ utf8s rs ++ 0 :: tl) 0) with (Some c) by now rewrite E. cbn [obind]. decs. rewrite Hl, skipn_all_app.
    cbn [starting_before]. rewrite Z.gtb_ltb. destruct (0 <? max); [|f_equal; lia]. rewrite IH by (easy || lia). f_equal. lia.
Qed.
