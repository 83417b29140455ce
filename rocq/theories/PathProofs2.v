(** Listing directories. *)
From Coq Require Import FinFun.
From Verif Require Import Base CStr CStrSpec Path PathSpec PathProofs.
Open Scope list_scope.

Lemma skipped_hidden n : skipped n = true <-> hidden n.
Proof.
  unfold hidden. split.
  - destruct n as [|a [|b r]]; [discriminate| |]; cbn.
    + destruct (Z.eq_dec a 46) as [->|Ha]; [now left|]. intros H. exfalso. destruct a as [|a|a]; try discriminate. repeat (destruct a as [a|a|]; try discriminate). now apply Ha.
    + destruct (Z.eq_dec a 46) as [->|Ha].
      * destruct (Z.eq_dec b 46) as [->|Hb]; [right; now exists r|]. intros H. exfalso. destruct b as [|b|b]; try discriminate. repeat (destruct b as [b|b|]; try discriminate). now apply Hb.
      * intros H. exfalso. destruct a as [|a|a]; try discriminate. repeat (destruct a as [a|a|]; try discriminate). now apply Ha.
  - intros [->|(r & ->)]; reflexivity.
Qed.

(** the entries listed, in order, and the directories among them *)
Fixpoint entries (l : list (list Z * node)) (sub : node -> list (list (list Z))) : list (list (list Z)) :=
  match l with
  | [] => []
  | (n, x) :: r => (if skipped n then [] else [n] :: map (cons n) (sub x)) ++ entries r sub
  end.
Fixpoint listing (t : node) : list (list (list Z)) :=
  match t with
  | NFile => []
  | NDir l => (fix go (l : list (list Z * node)) := match l with [] => [] | (n, x) :: r => (if skipped n then [] else [n] :: map (cons n) (listing x)) ++ go r end) l
  end.
Lemma listing_dir l : listing (NDir l) = entries l listing.
Proof. cbn [listing]. induction l as [|(n, x) r IH]; cbn [entries]; [easy|]. now rewrite IH. Qed.
Definition dir_entry (x : node) : bool := match x with NDir _ => true | NFile => false end.
Fixpoint subdirs (t : node) : list (list (list Z)) :=
  match t with
  | NFile => []
  | NDir l => (fix go (l : list (list Z * node)) := match l with [] => [] | (n, x) :: r => (if skipped n then [] else (if dir_entry x then [[n]] else []) ++ map (cons n) (subdirs x)) ++ go r end) l
  end.
Fixpoint dentries (l : list (list Z * node)) : list (list (list Z)) :=
  match l with
  | [] => []
  | (n, x) :: r => (if skipped n then [] else (if dir_entry x then [[n]] else []) ++ map (cons n) (subdirs x)) ++ dentries r
  end.
Lemma subdirs_dir l : subdirs (NDir l) = dentries l.
Proof. cbn [subdirs]. induction l as [|(n, x) r IH]; cbn [dentries]; [easy|]. now rewrite IH. Qed.

Lemma entries_in l sub cs : In cs (entries l sub) <-> exists n x r, In (n, x) l /\ cs = n :: r /\ ~ hidden n /\ (r = [] \/ In r (sub x)).
Proof.
  induction l as [|(n, x) l IH]; cbn [entries]; [split; [easy|intros (? & ? & ? & [] & _)]|]. rewrite in_app_iff, IH. split.
  - intros [H|(m & y & r & I & H)]; [|exists m, y, r; split; [now right|easy]].
    destruct (skipped n) eqn:E; [easy|]. assert (Hn : ~ hidden n) by (rewrite <- skipped_hidden; congruence).
    destruct H as [<-|H]; [exists n, x, []; split; [now left|]; auto|]. apply in_map_iff in H. destruct H as (r & <- & I). exists n, x, r. split; [now left|]. auto.
  - intros (m & y & r & [E|I] & -> & Hm & H); [|right; exists m, y, r; auto]. injection E as -> ->. left.
    destruct (skipped m) eqn:E; [now apply skipped_hidden in E|]. destruct H as [->|H]; [now left|right; now apply in_map].
Qed.
Lemma listing_in t : forall cs, In cs (listing t) <-> cs <> [] /\ (exists b, at_path t cs b) /\ Forall (fun n => ~ hidden n) cs.
Proof.
  induction t as [|l IH] using node_ind2; intros cs.
  - cbn. split; [easy|]. intros (H & (b & A) & _). inversion A; subst; easy.
  - rewrite listing_dir, entries_in. rewrite Forall_forall in IH. split.
    + intros (n & x & r & I & -> & Hn & H). split; [easy|].
      assert (G : (exists b, at_path x r b) /\ Forall (fun n => ~ hidden n) r).
      { destruct H as [->|H]; [split; [destruct x; eexists; constructor|constructor]|]. now apply (IH _ I) in H. }
      destruct G as ((b & A) & F). split; [exists b; now apply at_below with x|now constructor].
    + intros (Hcs & (b & A) & F). inversion A as [| |? n x r ? I Ax]; subst; [easy|]. inversion F as [|? ? Hn Fr]; subst.
      exists n, x, r. split; [easy|]. split; [easy|]. split; [easy|]. destruct r as [|a r]; [now left|]. right. apply (IH _ I). split; [easy|]. split; [now exists b|easy].
Qed.
Lemma dentries_in l cs : In cs (dentries l) <-> exists n x r, In (n, x) l /\ cs = n :: r /\ ~ hidden n /\ (r = [] /\ dir_entry x = true \/ In r (subdirs x)).
Proof.
  induction l as [|(n, x) l IH]; cbn [dentries]; [split; [easy|intros (? & ? & ? & [] & _)]|]. rewrite in_app_iff, IH. split.
  - intros [H|(m & y & r & I & H)]; [|exists m, y, r; split; [now right|easy]].
    destruct (skipped n) eqn:E; [easy|]. assert (Hn : ~ hidden n) by (rewrite <- skipped_hidden; congruence).
    apply in_app_iff in H. destruct H as [H|H].
    + destruct (dir_entry x) eqn:Ex; [|easy]. destruct H as [<-|[]]. exists n, x, []. split; [now left|]. auto.
    + apply in_map_iff in H. destruct H as (r & <- & I). exists n, x, r. split; [now left|]. auto.
  - intros (m & y & r & [E|I] & -> & Hm & H); [|right; exists m, y, r; auto]. injection E as -> ->. left.
    destruct (skipped m) eqn:E; [now apply skipped_hidden in E|]. apply in_app_iff. destruct H as [(-> & Ey)|H]; [left; rewrite Ey; now left|right; now apply in_map].
Qed.
Lemma subdirs_in t : forall cs, In cs (subdirs t) <-> cs <> [] /\ at_path t cs true /\ Forall (fun n => ~ hidden n) cs.
Proof.
  induction t as [|l IH] using node_ind2; intros cs.
  - cbn. split; [easy|]. intros (H & A & _). inversion A; subst; easy.
  - rewrite subdirs_dir, dentries_in. rewrite Forall_forall in IH. split.
    + intros (n & x & r & I & -> & Hn & H). split; [easy|].
      assert (G : at_path x r true /\ Forall (fun n => ~ hidden n) r).
      { destruct H as [(-> & Ex)|H]; [split; [destruct x; [easy|constructor]|constructor]|]. now apply (IH _ I) in H. }
      destruct G as (A & F). split; [now apply at_below with x|now constructor].
    + intros (Hcs & A & F). inversion A as [| |? n x r ? I Ax]; subst; [easy|]. inversion F as [|? ? Hn Fr]; subst.
      exists n, x, r. split; [easy|]. split; [easy|]. split; [easy|]. destruct r as [|a r]; [left; split; [easy|]; now inversion Ax|]. right. now apply (IH _ I).
Qed.

Lemma nodup_app {A} (a b : list A) : NoDup a -> NoDup b -> (forall x, In x a -> ~ In x b) -> NoDup (a ++ b).
Proof.
  intros Ha Hb H. induction Ha as [|x a Hx Ha IH]; [easy|]. cbn. constructor.
  - rewrite in_app_iff. intros [I|I]; [easy|]. apply (H x); [now left|easy].
  - apply IH. intros y I. apply H. now right.
Qed.
Lemma nodup_cons_map {A} (n : A) l : NoDup l -> NoDup (map (cons n) l).
Proof. intros H. apply Injective_map_NoDup; [|easy]. intros a b [= E]. easy. Qed.
Lemma listing_nodup t : distinct t -> NoDup (listing t).
Proof.
  induction t as [|l IH] using node_ind2; intros D; [constructor|]. rewrite listing_dir. inversion D as [|? ND FD]; subst. clear D.
  induction l as [|(n, x) l IHl]; cbn [entries]; [constructor|]. inversion IH as [|? ? Hx IH']; inversion ND as [|? ? Nn ND']; inversion FD as [|? ? Dx FD']; subst.
  apply nodup_app; [| now apply IHl|].
  - destruct (skipped n); [constructor|]. constructor; [|now apply nodup_cons_map, Hx].
    intros I. apply in_map_iff in I. destruct I as (r & [= ->] & I). apply listing_in in I. easy.
  - intros cs I J. apply entries_in in J. destruct J as (m & y & r & J & -> & _). apply (in_map fst) in J. cbn in J, Nn.
    destruct (skipped n); [easy|]. destruct I as [[= -> _]|I]; [easy|]. apply in_map_iff in I. destruct I as (s & [= -> _] & _). easy.
Qed.
Lemma subdirs_nodup t : distinct t -> NoDup (subdirs t).
Proof.
  induction t as [|l IH] using node_ind2; intros D; [constructor|]. rewrite subdirs_dir. inversion D as [|? ND FD]; subst. clear D.
  induction l as [|(n, x) l IHl]; cbn [dentries]; [constructor|]. inversion IH as [|? ? Hx IH']; inversion ND as [|? ? Nn ND']; inversion FD as [|? ? Dx FD']; subst.
  apply nodup_app; [| now apply IHl|].
  - destruct (skipped n); [constructor|]. apply nodup_app; [destruct (dir_entry x); repeat constructor; easy|now apply nodup_cons_map, Hx|].
    intros cs I J. destruct (dir_entry x); [|easy]. destruct I as [<-|[]]. apply in_map_iff in J. destruct J as (r & [= ->] & J). apply subdirs_in in J. easy.
  - intros cs I J. apply dentries_in in J. destruct J as (m & y & r & J & -> & _). apply (in_map fst) in J. cbn in J, Nn.
    destruct (skipped n); [easy|]. apply in_app_iff in I. destruct I as [I|I].
    + destruct (dir_entry x); [|easy]. destruct I as [[= -> _]|[]]. easy.
    + apply in_map_iff in I. destruct I as (s & [= -> _] & _). easy.
Qed.
(** a directory comes before what is in it *)
Definition parents_first (ps : list (list (list Z))) : Prop :=
  forall a cs b q, ps = a ++ cs :: b -> prefix cs q -> q <> cs -> ~ In q a.
Lemma app_split {A} (a b c d : list A) x : a ++ x :: b = c ++ d -> (exists r, c = a ++ x :: r /\ b = r ++ d) \/ (exists r, a = c ++ r /\ d = r ++ x :: b).
Proof.
  revert c. induction a as [|y a IH]; intros [|z c] E; cbn in *.
  - right. now exists [].
  - injection E as <- ->. left. now exists c.
  - right. now exists (y :: a).
  - injection E as <- E. destruct (IH _ E) as [(r & -> & ->)|(r & -> & ->)]; [left|right]; now exists r.
Qed.
Lemma map_split {A B} (f : A -> B) l a x b : map f l = a ++ x :: b -> exists a' y b', l = a' ++ y :: b' /\ a = map f a' /\ x = f y /\ b = map f b'.
Proof.
  revert a. induction l as [|z l IH]; intros [|w a] E; cbn in *; try easy.
  - injection E as <- <-. now exists [], z, l.
  - injection E as <- E. destruct (IH _ E) as (a' & y & b' & -> & -> & -> & ->). now exists (z :: a'), y, b'.
Qed.
Lemma listing_order t : distinct t -> parents_first (listing t).
Proof.
  induction t as [|l IH] using node_ind2; intros D; [intros [|]; easy|]. rewrite listing_dir. inversion D as [|? ND FD]; subst. clear D.
  induction l as [|(n, x) l IHl]; cbn [entries]; [intros [|]; easy|]. inversion IH as [|? ? Hx IH']; inversion ND as [|? ? Nn ND']; inversion FD as [|? ? Dx FD']; subst.
  specialize (IHl IH' ND' FD'). specialize (Hx Dx). cbn [snd] in Hx. intros a cs b q E P Hq I. symmetry in E. apply app_split in E. destruct E as [(r & E & ->)|(r & -> & E)].
  - destruct (skipped n); [now destruct a|]. destruct a as [|c a]; [easy|]. injection E as <- E. apply map_split in E. destruct E as (a' & y & b' & E & -> & -> & ->).
    destruct P as (s & ->). destruct I as [I|I]; [injection I as I; symmetry in I; apply app_eq_nil in I; destruct I as (-> & ->); easy|].
    apply in_map_iff in I. destruct I as (q' & [= ->] & I). apply (Hx a' y b' (y ++ s) E); [now exists s|intros Z; apply Hq; cbn; now rewrite Z|easy].
  - assert (Ics : In cs (entries l listing)) by (rewrite E; apply in_app_iff; right; now left).
    apply in_app_iff in I. destruct I as [I|I]; [|now apply (IHl r cs b q)].
    apply entries_in in Ics. destruct Ics as (m & y & s & J & -> & _). apply (in_map fst) in J. cbn in J, Nn. destruct P as (u & ->).
    destruct (skipped n); [easy|]. destruct I as [[= -> _]|I]; [easy|]. apply in_map_iff in I. destruct I as (v & [= -> _] & _). easy.
Qed.

Definition lines (dirname : list Z) (ps : list (list (list Z))) : list Z := text_of (map (line_of dirname) ps).
Lemma lines_app d a b : lines d (a ++ b) = lines d a ++ lines d b.
Proof. unfold lines, text_of. now rewrite map_app, flat_map_app. Qed.
Lemma lines_below d n ps : lines d (map (cons n) ps) = lines (d ++ 47 :: n) ps.
Proof.
  unfold lines, text_of. induction ps as [|p ps IH]; [easy|]. cbn [map flat_map]. rewrite IH. f_equal. unfold line_of. cbn [flat_map]. now rewrite <- !app_assoc.
Qed.

Lemma direntry_all t : forall d avail, dir_entry t = true -> (2 * length (subdirs t) + 1 <= avail)%nat ->
  direntry t d true avail = (lines d (listing t), (avail - (2 * length (subdirs t) + 1))%nat).
Proof.
  induction t as [|l IH] using node_ind2; intros d avail Hd L; [discriminate|]. clear Hd. rewrite listing_dir, subdirs_dir in *.
  destruct avail as [|avail]; [lia|]. cbn [direntry]. replace (S avail - (2 * length (dentries l) + 1))%nat with (avail - 2 * length (dentries l))%nat by lia.
  assert (L' : (2 * length (dentries l) <= avail)%nat) by lia. clear L. revert avail L'.
  induction l as [|(n, x) l IHl]; intros avail L; cbn [entries dentries] in *; [cbn; now rewrite Nat.sub_0_r|].
  inversion IH as [|? ? Hx IH']; subst. specialize (IHl IH'). cbn in Hx.
  destruct (skipped n); [apply IHl; exact L|]. change ([47] ++ n) with (47 :: n). rewrite !app_length, map_length in L. rewrite !app_length, map_length.
  rewrite lines_app. cbn [app]. change (lines d ([n] :: map (cons n) (listing x))) with (lines d ([[n]] ++ map (cons n) (listing x))). rewrite lines_app, lines_below.
  destruct x as [|l']; cbn [dir_entry length] in *.
  - cbn [subdirs length] in *. rewrite IHl by lia. cbn [listing]. unfold lines at 2 3. cbn. rewrite app_nil_r. unfold line_of. cbn [flat_map]. rewrite app_nil_r, <- !app_assoc. reflexivity.
  - destruct avail as [|avail]; [lia|]. rewrite Hx by (cbn in *; lia). rewrite IHl by lia.
    unfold lines at 3. cbn. unfold line_of. cbn [flat_map]. rewrite !app_nil_r, <- !app_assoc. f_equal. lia.
Qed.
(** the names listed without going down *)
Definition tops (l : list (list Z * node)) : list (list Z) := filter (fun n => negb (skipped n)) (map fst l).
Lemma direntry_top l d avail : direntry (NDir l) d false (S avail) = (lines d (map (fun n => [n]) (tops l)), avail).
Proof.
  cbn [direntry]. induction l as [|(n, x) l IH]; [easy|]. unfold tops in *. cbn [map filter fst]. destruct (skipped n); cbn [negb]; [exact IH|].
  rewrite IH. change ([47] ++ n) with (47 :: n). cbn [map].
  match goal with |- _ = (lines d (?x :: ?r), _) => change (lines d (x :: r)) with (lines d ([x] ++ r)) end. rewrite lines_app.
  unfold lines at 2. cbn. unfold line_of. cbn [flat_map]. now rewrite !app_nil_r, <- !app_assoc.
Qed.

Lemma find_below cs : forall t x, distinct t -> below t cs x -> find cs t = Some x.
Proof.
  induction cs as [|c cs IH]; intros t x D B; inversion B as [|l n y ? ? I By]; subst; [now destruct x|].
  inversion D as [|? ND FD]; subst. cbn. rewrite (in_get _ _ _ ND I). cbn. rewrite Forall_forall in FD. apply IH; [apply (FD _ I)|easy].
Qed.
Lemma below_find cs : forall t x, find cs t = Some x -> below t cs x.
Proof.
  induction cs as [|c cs IH]; intros [|l] x E; cbn in E; try discriminate; try (injection E as <-; constructor).
  destruct (get l c) as [y|] eqn:G; [|discriminate]. apply below_in with y; [now apply get_in|now apply IH].
Qed.
Lemma below_distinct t cs x : distinct t -> below t cs x -> distinct x.
Proof.
  intros D B. induction B as [|l n y cs x I B IH]; [easy|]. inversion D as [|? ND FD]; subst. rewrite Forall_forall in FD. apply IH, (FD _ I).
Qed.
