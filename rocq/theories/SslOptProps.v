(** * C54: which TLS protocols a protocol string switches on *)
From stdpp Require Import prelude gmap.
From Coq Require Import ZArith Lia.
From Verif Require Import SslOptModel.
Local Open Scope Z_scope.

(** ** Specification: the words of a string, by their place in it *)
Definition blank (c : Z) : Prop := c = 32 \/ c = 9 \/ c = 10 \/ c = 11 \/ c = 12 \/ c = 13.

(** [w] stands in [s] as a whole word, delimited by white space or the ends of the string. *)
Definition has_word (s w : list Z) : Prop :=
  exists l r, s = l ++ w ++ r /\ w <> [] /\ Forall (fun c => ~ blank c) w /\
    (l = [] \/ exists l' c, l = l' ++ [c] /\ blank c) /\
    (r = [] \/ exists c r', r = c :: r' /\ blank c).

(** Equal up to ASCII letter case. *)
Definition same_letter (a b : Z) : Prop :=
  a = b \/ (65 <= a <= 90 /\ b = a + 32) \/ (65 <= b <= 90 /\ a = b + 32).
Definition same_word (a b : list Z) : Prop := Forall2 same_letter a b.

(** The documented names. *)
Definition name_of (p : proto) : list Z :=
  match p with
  | SSLv2 => [83;83;76;118;50] | SSLv3 => [83;83;76;118;51] | TLSv1 => [84;76;83;118;49]
  | TLSv1_1 => [84;76;83;118;49;46;49] | TLSv1_2 => [84;76;83;118;49;46;50] | TLSv1_3 => [84;76;83;118;49;46;51]
  end.

Definition names (s : list Z) (p : proto) : Prop := exists w, has_word s w /\ same_word (name_of p) w.

(** ** Proof *)
Lemma isspace_spec c : isspace c = true <-> blank c.
Proof.
  unfold isspace, blank. rewrite orb_true_iff, andb_true_iff, !bool_decide_eq_true. lia.
Qed.
Lemma isspace_false c : isspace c = false <-> ~ blank c.
Proof. rewrite <- isspace_spec. destruct (isspace c); split; congruence. Qed.

Lemma tolower_same a b : tolower a = tolower b <-> same_letter a b.
Proof. unfold tolower, same_letter. repeat case_decide; lia. Qed.

Lemma tolower_pos c : 0 < c -> 0 < tolower c.
Proof. unfold tolower. case_decide; lia. Qed.

Lemma strcasecmp_spec a b : Forall (fun c => 0 < c) a -> Forall (fun c => 0 < c) b ->
  strcasecmp a b = 0 <-> same_word a b.
Proof.
  intros Ha. revert b. induction Ha as [|x a Hx Ha IH]; intros b Hb; destruct Hb as [|y b Hy Hb]; cbn [strcasecmp].
  - split; [constructor|done].
  - pose proof (tolower_pos y Hy). split; [lia|]. intros H'; inversion H'.
  - pose proof (tolower_pos x Hx). split; [lia|]. intros H'; inversion H'.
  - case_decide as He.
    + rewrite (IH b Hb). split; intros H'.
      * constructor; [by apply tolower_same|done].
      * by inversion H'.
    + split; [lia|]. intros H'. inversion H'; subst. exfalso. apply He. by apply tolower_same.
Qed.

Lemma skip_space_spec s : exists l, s = l ++ skip_space s /\ Forall blank l /\
  (skip_space s = [] \/ exists c r, skip_space s = c :: r /\ ~ blank c).
Proof.
  induction s as [|c s IH]; cbn [skip_space].
  - exists []. split_and!; [done|constructor|by left].
  - destruct (isspace c) eqn:E.
    + destruct IH as (l & Hs & Hl & Hr). exists (c :: l). split_and!; [cbn; by f_equal| |done].
      constructor; [by apply isspace_spec|done].
    + exists []. split_and!; [done|constructor|]. right. eexists _, _. split; [done|]. by apply isspace_false.
Qed.

Lemma word_spec s : s = (word s).1 ++ (word s).2 /\ Forall (fun c => ~ blank c) (word s).1 /\
  ((word s).2 = [] \/ exists c r, (word s).2 = c :: r /\ blank c).
Proof.
  induction s as [|c s IH]; cbn [word].
  - split_and!; [done|constructor|by left].
  - destruct (isspace c) eqn:E.
    + split_and!; [done|constructor|]. right. eexists _, _. split; [done|]. by apply isspace_spec.
    + destruct (word s) as [w r]. cbn [fst snd] in *. destruct IH as (-> & Hw & Hr).
      split_and!; [done| |done]. constructor; [by apply isspace_false|done].
Qed.

(** Words of [l ++ w ++ r]. *)
Lemma app_mid_cases {A} (l1 l2 r1 r2 : list A) : l1 ++ r1 = l2 ++ r2 ->
  (exists k, l2 = l1 ++ k /\ r1 = k ++ r2) \/ (exists k, l1 = l2 ++ k /\ r2 = k ++ r1).
Proof.
  revert l2. induction l1 as [|x l1 IH]; intros [|y l2] H; cbn in *.
  - left. exists []. done.
  - left. exists (y :: l2). done.
  - right. exists (x :: l1). done.
  - injection H as -> H. destruct (IH _ H) as [(k & -> & ->)|(k & -> & ->)]; [left|right]; by exists k.
Qed.

Lemma has_word_cons_blank c s w : blank c -> has_word (c :: s) w <-> has_word s w.
Proof.
  intros Hc. split.
  - intros (l & r & Hs & Hw & Hf & Hl & Hr).
    destruct l as [|x l].
    + destruct w as [|y w]; [done|]. cbn in Hs. injection Hs as -> ->. apply Forall_cons_1 in Hf as [? _]. done.
    + injection Hs as -> ->. exists l, r. split_and!; [done|done|done| |done].
      destruct l as [|y l] using rev_ind; [by left|]. right.
      destruct Hl as [?|(l' & z & Hl & Hz)]; [done|].
      change (x :: l ++ [y]) with ((x :: l) ++ [y]) in Hl. apply app_inj_tail in Hl as [_ ->]. by exists l, z.
  - intros (l & r & -> & Hw & Hf & Hl & Hr). exists (c :: l), r. split_and!; [done|done|done| |done].
    right. destruct Hl as [->|(l' & z & -> & Hz)]; [by exists [], c|by exists (c :: l'), z].
Qed.

Lemma has_word_blanks l s w : Forall blank l -> has_word (l ++ s) w <-> has_word s w.
Proof. induction 1 as [|c l Hc Hl IH]; [done|]. cbn. by rewrite has_word_cons_blank. Qed.

Lemma has_word_nil w : ~ has_word [] w.
Proof.
  intros (l & r & Hs & Hw & _). destruct l; [|done]. destruct w; done.
Qed.

(** A leading word [v] followed by the end or a blank. *)
Lemma has_word_lead v r w : v <> [] -> Forall (fun c => ~ blank c) v ->
  (r = [] \/ exists c r', r = c :: r' /\ blank c) ->
  has_word (v ++ r) w <-> w = v \/ has_word r w.
Proof.
  intros Hv Hf Hr. split.
  - intros (l & r2 & Hs & Hw & Hfw & Hl & Hr2).
    destruct (app_mid_cases _ _ _ _ Hs) as [(k & -> & ->)|(k & -> & Hk)].
    + (* v inside l *)
      right. exists k, r2. split_and!; [done|done|done| |done].
      destruct k as [|c k] using rev_ind; [by left|]. right.
      destruct Hl as [Hl|(l' & z & Hl & Hz)].
      { destruct v; done. }
      rewrite app_assoc in Hl. apply app_inj_tail in Hl as [_ ->]. by exists k, z.
    + (* l inside v *)
      destruct Hl as [->|(l' & z & -> & Hz)].
      * cbn in *. destruct (app_mid_cases _ _ _ _ Hk) as [(k2 & -> & ->)|(k2 & -> & Hr')].
        -- destruct k2 as [|c k2]; [left; by rewrite app_nil_r|]. exfalso.
           destruct Hr2 as [?|(c' & r' & Hc & Hb)]; [done|]. injection Hc as Hc _. subst c'.
           apply Forall_app in Hf as [_ Hf]. apply Forall_cons_1 in Hf as [? _]. done.
        -- destruct k2 as [|c k2]; [left; by rewrite app_nil_r|]. exfalso.
           destruct Hr as [->|(c' & r' & -> & Hb)]; [done|]. injection Hr' as Hr' _. subst c'.
           apply Forall_app in Hfw as [_ Hfw]. apply Forall_cons_1 in Hfw as [? _]. done.
      * exfalso. rewrite <- app_assoc in Hf. apply Forall_app in Hf as [_ Hf]. apply Forall_cons_1 in Hf as [? _]. done.
  - intros [->|(l & r2 & -> & Hw & Hfw & Hl & Hr2)].
    + exists [], r. split_and!; [done|done|done|by left|done].
    + destruct Hl as [->|(l' & z & -> & Hz)].
      * (* then w starts r, whose first byte is blank *)
        exfalso. destruct w as [|y w]; [done|]. destruct Hr as [?|(c & r' & Hc & Hb)]; [done|].
        injection Hc as Hc _. subst c. apply Forall_cons_1 in Hfw as [? _]. done.
      * exists (v ++ l' ++ [z]), r2. split_and!; [by rewrite <- !app_assoc|done|done| |done].
        right. exists (v ++ l'), z. by rewrite app_assoc.
Qed.

Definition byte_str (s : list Z) : Prop := Forall (fun c => 0 < c < 256) s.

Lemma name_pos p : Forall (fun c => 0 < c) (name_of p).
Proof. destruct p; repeat constructor. Qed.

Lemma lor_land_bit m b p : Z.land (Z.lor m b) (bit_of p) = 0 <->
  Z.land m (bit_of p) = 0 /\ Z.land b (bit_of p) = 0.
Proof. rewrite Z.land_lor_distr_l. rewrite Z.lor_eq_0_iff. done. Qed.

Lemma lookup_word_spec w mask p : Forall (fun c => 0 < c) w ->
  Z.land (lookup_word table w mask) (bit_of p) <> 0 <->
  Z.land mask (bit_of p) <> 0 \/ same_word (name_of p) w.
Proof.
  intros Hw.
  assert (Hs : forall q, strcasecmp (name_of q) w = 0 <-> same_word (name_of q) w)
    by (intros q; apply strcasecmp_spec; [apply name_pos|done]).
  unfold table. cbn [lookup_word].
  change ([83;83;76;118;50]) with (name_of SSLv2). change ([83;83;76;118;51]) with (name_of SSLv3).
  change ([84;76;83;118;49]) with (name_of TLSv1). change ([84;76;83;118;49;46;49]) with (name_of TLSv1_1).
  change ([84;76;83;118;49;46;50]) with (name_of TLSv1_2). change ([84;76;83;118;49;46;51]) with (name_of TLSv1_3).
  assert (Hstep : forall q m, Z.land (if decide (strcasecmp (name_of q) w = 0) then Z.lor m (bit_of q) else m) (bit_of p) <> 0
     <-> Z.land m (bit_of p) <> 0 \/ (p = q /\ same_word (name_of q) w)).
  { intros q m. case_decide as Hd.
    - rewrite lor_land_bit. rewrite Hs in Hd. destruct (decide (p = q)) as [->|Hn].
      + assert (Z.land (bit_of q) (bit_of q) <> 0) by (by destruct q). tauto.
      + assert (Z.land (bit_of q) (bit_of p) = 0) by (by destruct q, p). tauto.
    - rewrite Hs in Hd. tauto. }
  change 2 with (bit_of SSLv2). change 4 with (bit_of SSLv3). change 8 with (bit_of TLSv1).
  change 16 with (bit_of TLSv1_1). change 32 with (bit_of TLSv1_2). change 64 with (bit_of TLSv1_3).
  rewrite !Hstep. clear Hstep Hs Hw.
  destruct p; split; intros H; intuition (try discriminate).
Qed.

Lemma byte_str_pos s : byte_str s -> Forall (fun c => 0 < c) s.
Proof. intros H. eapply Forall_impl; [exact H|]. cbn. lia. Qed.

Lemma scan_spec fuel hot mask : byte_str hot -> (length hot < fuel)%nat ->
  exists m, scan fuel hot mask = Some m /\
    forall p, Z.land m (bit_of p) <> 0 <-> Z.land mask (bit_of p) <> 0 \/ names hot p.
Proof.
  revert hot mask. induction fuel as [|fuel IH]; intros hot mask Hb Hlen; [lia|].
  cbn [scan].
  destruct (skip_space_spec hot) as (l & Hhot & Hl & Hhead).
  set (h := skip_space hot) in *.
  destruct (word_spec h) as (Hh & Hw & Hr). destruct (word h) as [w r]. cbn [fst snd] in *.
  assert (Hnames : forall p, names hot p <-> names h p).
  { intros p. unfold names. split; intros (v & Hv & ?); exists v; split; [|done| |done]; rewrite Hhot in *.
    - by apply (has_word_blanks l).
    - by apply (has_word_blanks l). }
  case_decide as Hd.
  { subst w. exists mask. split; [done|]. intros p. rewrite Hnames.
    cbn in Hh. subst r. assert (h = []) as Hnil.
    { destruct Hhead as [?|(c & t & Hc & Hn)]; [done|]. destruct Hr as [?|(c' & t' & Hc' & Hb')]; [done|].
      rewrite Hc in Hc'. injection Hc' as -> ->. done. }
    split; [by left|]. intros [?|(v & Hv & _)]; [done|]. rewrite Hnil in Hv. by apply has_word_nil in Hv. }
  assert (Hbh : byte_str h) by (unfold byte_str in *; rewrite Hhot in Hb; by apply Forall_app in Hb as [_ ?]).
  assert (Hbw : byte_str w /\ byte_str r) by (unfold byte_str in *; rewrite Hh in Hbh; by apply Forall_app in Hbh).
  destruct Hbw as [Hbw Hbr].
  assert (Hnh : forall p, names h p <-> same_word (name_of p) w \/ names r p).
  { intros p. unfold names. rewrite Hh. split.
    - intros (v & Hv & Hs). apply has_word_lead in Hv as [->|Hv]; [by left|right; by exists v|done|done|done].
    - intros [Hs|(v & Hv & Hs)]; [exists w|exists v]; (split; [|done]); apply has_word_lead; auto. }
  set (r' := match r with [] => [] | _ :: t => t end).
  assert (Hnr : forall p, names r p <-> names r' p).
  { intros p. destruct Hr as [->|(c & t & -> & Hc)]; [done|]. unfold r', names.
    split; intros (v & Hv & Hs); exists v; (split; [|done]); by apply (has_word_cons_blank c). }
  assert (Hlk := fun p => lookup_word_spec w mask p (byte_str_pos _ Hbw)).
  case_decide as Hd2.
  - eexists. split; [done|]. intros p. rewrite Hlk, Hnames, Hnh, Hnr, Hd2.
    split; [intros [?|?]; auto|]. intros [?|[?|(v & Hv & _)]]; auto. by apply has_word_nil in Hv.
  - destruct (IH r' (lookup_word table w mask)) as (m & Hm & Hspec).
    + unfold r'. destruct r as [|c t]; [constructor|]. by apply Forall_cons_1 in Hbr as [_ ?].
    + assert (Hlh : (length hot = length l + length h)%nat) by (rewrite Hhot at 1; by rewrite app_length).
      rewrite Hlh in Hlen. rewrite Hh, app_length in Hlen. destruct w; [done|]. cbn in Hlen. unfold r'. destruct r; cbn in *; lia.
    + exists m. split; [done|]. intros p. rewrite Hspec, Hlk, Hnames, Hnh, Hnr. tauto.
Qed.

(** ** C54 *)
(** For every non-empty protocol string the call succeeds and afterwards a protocol is refused
    exactly if it is not named, as a whole word in any letter case, in the string; other options
    are untouched and versions up to TLS 1.3 are allowed. *)
Theorem C54_protocols (c : ctx) (s : list Z) : byte_str s -> s <> [] ->
  exists c', set_protocols c (Some s) = Some c' /\
    (forall p, c_no c' p = false <-> names s p) /\
    c_other c' = c_other c /\ c_min c' = 0 /\ c_max c' = 772.
Proof.
  intros Hb Hne. unfold set_protocols. destruct s as [|x s]; [done|].
  destruct (scan_spec (S (length (x :: s))) (x :: s) 0 Hb) as (m & -> & Hm); [lia|].
  eexists. split; [done|]. cbn [c_no c_other c_min c_max]. split_and!; [|done|done|done].
  intros p. rewrite bool_decide_eq_false. rewrite Hm, Z.land_0_l. tauto.
Qed.

(** Without a string (NULL or "") the protocol flags stay as they were. *)
Theorem C54_default (c : ctx) (s : option (list Z)) : s = None \/ s = Some [] ->
  exists c', set_protocols c s = Some c' /\ (forall p, c_no c' p = c_no c p) /\
    c_other c' = c_other c /\ c_min c' = 0 /\ c_max c' = 772.
Proof. intros [-> | ->]; (eexists; split; [reflexivity|done]). Qed.

(** A case: "  tlsV1.2	TLSv1.3x TLSv1.3" names TLS 1.2 and TLS 1.3 and nothing else. *)
Example C54_demo :
  match set_protocols (mkctx (fun _ => true) 5 0 0)
    (Some [32;32;116;108;115;86;49;46;50;9;84;76;83;118;49;46;51;120;32;84;76;83;118;49;46;51]) with
  | Some c => map (c_no c) [SSLv2; SSLv3; TLSv1; TLSv1_1; TLSv1_2; TLSv1_3] = [true; true; true; true; false; false]
  | None => False
  end.
Proof. vm_compute. reflexivity. Qed.

Print Assumptions C54_protocols.
Print Assumptions C54_default.
