(** CProofs: what the generated pack and unpack code does. *)
From Coq Require Import Permutation.
From Verif Require Import Base PyNum Conversion Signal Formats Message LayoutSpec CodecSpec DictLemmas BitsLemmas GenItems NodeProofs
     TreeProofs Construct CodecThms RoundTrip MsgThms CSource CSegments.

(** ** The helper functions *)
Definition width_ok (w : Z) : Prop := w = 8 \/ w = 16 \/ w = 32 \/ w = 64.

Lemma type_width s : width_ok (type_length s).
Proof. unfold width_ok, type_length. repeat destruct (_ <=? _); auto. Qed.
Lemma type_fits s : s_length s <= 64 -> s_length s <= type_length s.
Proof. unfold type_length. intros. repeat (match goal with |- context [?a <=? ?b] => destruct (Z.leb_spec a b) end); lia. Qed.

Lemma pow_mono a b : 0 <= a <= b -> 0 < 2 ^ a <= 2 ^ b.
Proof. intros. split; [lia|]. apply Z.pow_le_mono_r; lia. Qed.

Lemma pack_shift_spec w v sh mk : width_ok w -> 0 <= v < 2 ^ w -> 0 <= mk < 256 -> - w < sh <= 7 ->
  exists x, (let (sh', d) := orient false sh in pack_shift d w v sh' mk) = Some x /\ 0 <= x < 256 /\
    forall j, 0 <= j < 8 -> Z.testbit x j = Z.testbit mk j && Z.testbit v (j - sh).
Proof.
  intros W V M S. unfold orient, pack_shift.
  assert (W' : 8 <= w <= 64) by (unfold width_ok in W; lia).
  rewrite (Z.mod_small v) by assumption. rewrite (Z.mod_small mk) by assumption.
  assert (BND : forall r, 0 <= Z.land (r mod 256) mk < 256).
  { intros r. apply (testbit_bound _ 8); [lia|]. intros i Hi. rewrite Z.land_spec.
    rewrite (testbit_high mk 8) by (cbn; lia). apply andb_false_r. }
  assert (BIT : forall r j, 0 <= j < 8 -> Z.testbit (Z.land (r mod 256) mk) j = Z.testbit mk j && Z.testbit r j).
  { intros r j Hj. rewrite Z.land_spec. change 256 with (2 ^ 8). rewrite Z.mod_pow2_bits_low by lia. apply andb_comm. }
  destruct (Z.ltb_spec sh 0).
  - unfold c_shr. rewrite Z.mod_small by lia. destruct (Z.ltb_spec (- sh) (Z.max 32 w)); [|lia]. cbn [option_map].
    eexists. split; [reflexivity|]. split; [apply BND|]. intros j Hj. rewrite BIT by assumption. f_equal.
    rewrite Z.div_pow2_bits by lia. f_equal; lia.
  - unfold c_shl. rewrite Z.mod_small by lia. destruct (Z.leb_spec w 16).
    + assert (P : v * 2 ^ sh < 2 ^ 31).
      { pose proof (pow_mono w 16). pose proof (pow_mono sh 7). change (2 ^ 7) with 128 in *. change (2 ^ 16) with 65536 in *.
        change (2 ^ 31) with 2147483648. nia. }
      destruct (Z.ltb_spec sh 32); [|lia]. destruct (Z.ltb_spec (v * 2 ^ sh) (2 ^ 31)); [|lia]. cbn [andb option_map].
      eexists. split; [reflexivity|]. split; [apply BND|]. intros j Hj. rewrite BIT by assumption. f_equal.
      now rewrite Z.mul_pow2_bits by lia.
    + destruct (Z.ltb_spec sh w); [|lia]. cbn [option_map].
      eexists. split; [reflexivity|]. split; [apply BND|]. intros j Hj. rewrite BIT by assumption. f_equal.
      rewrite Z.mod_pow2_bits_low by lia. now rewrite Z.mul_pow2_bits by lia.
Qed.

Lemma unpack_shift_spec w b sh mk : width_ok w -> 0 <= b < 256 -> 0 <= mk < 256 -> - w < sh <= 7 ->
  exists x, (let (sh', d) := orient true sh in unpack_shift d w b sh' mk) = Some x /\ 0 <= x < 2 ^ w /\
    forall k, 0 <= k -> Z.testbit x k = (k <? w) && Z.testbit (Z.land b mk) (k + sh).
Proof.
  intros W B M S. unfold orient, unpack_shift.
  assert (W' : 8 <= w <= 64) by (unfold width_ok in W; lia).
  rewrite (Z.mod_small mk) by assumption.
  assert (LB : 0 <= Z.land b mk < 256).
  { apply (testbit_bound _ 8); [lia|]. intros i Hi. rewrite Z.land_spec.
    rewrite (testbit_high mk 8) by (cbn; lia). apply andb_false_r. }
  set (a := Z.land b mk) in *.
  assert (BND : forall r, 0 <= r mod 2 ^ w < 2 ^ w) by (intros; apply Z.mod_pos_bound; lia).
  assert (BIT : forall r k, 0 <= k -> Z.testbit (r mod 2 ^ w) k = (k <? w) && Z.testbit r k).
  { intros r k Hk. destruct (Z.ltb_spec k w); [now rewrite Z.mod_pow2_bits_low by lia|now rewrite Z.mod_pow2_bits_high by lia]. }
  destruct (Z.ltb_spec sh 0).
  - unfold c_shl. rewrite Z.mod_small by lia. destruct (Z.leb_spec w 16).
    + assert (P : a * 2 ^ (- sh) < 2 ^ 31).
      { pose proof (pow_mono (- sh) 15). change (2 ^ 15) with 32768 in *. change (2 ^ 31) with 2147483648. nia. }
      destruct (Z.ltb_spec (- sh) 32); [|lia]. destruct (Z.ltb_spec (a * 2 ^ (- sh)) (2 ^ 31)); [|lia]. cbn [andb option_map].
      eexists. split; [reflexivity|]. split; [apply BND|]. intros k Hk. rewrite BIT by assumption. f_equal.
      rewrite Z.mul_pow2_bits by lia. f_equal; lia.
    + destruct (Z.ltb_spec (- sh) w); [|lia]. cbn [option_map].
      eexists. split; [reflexivity|]. split; [apply BND|]. intros k Hk. rewrite BIT by assumption.
      rewrite BIT by assumption. rewrite andb_assoc, andb_diag. f_equal. rewrite Z.mul_pow2_bits by lia. f_equal; lia.
  - unfold c_shr. rewrite Z.mod_small by lia. destruct (Z.ltb_spec sh (Z.max 32 w)); [|lia]. cbn [option_map].
    eexists. split; [reflexivity|]. split; [apply BND|]. intros k Hk. rewrite BIT by assumption. f_equal.
    now rewrite Z.div_pow2_bits by lia.
Qed.

(** ** Statement lists *)
Lemma crun_app h a b e : crun h (a ++ b) e = match crun h a e with Some e' => crun h b e' | None => None end.
Proof. revert e. induction a as [|x a IH]; intros e; [reflexivity|]. cbn. destruct (cexec h x e); auto. Qed.

Lemma cexec_switch h n w sg cases e :
  cexec h (CSwitch n w sg cases) e =
  match find (fun c => case_const w sg (fst c) =? c_int w sg (c_mem e n)) cases with
  | Some c => crun h (snd c) e
  | None => Some e
  end.
Proof.
  cbn [cexec]. induction cases as [|[k b] cs IH]; [reflexivity|]. cbn [find fst].
  destruct (_ =? _); [|exact IH]. cbn [snd]. clear IH. revert e. induction b as [|x b IH]; intros e; [reflexivity|].
  cbn [crun]. destruct (cexec h x e); auto.
Qed.

Lemma zget_perm {A} (l l' : list (Z * A)) k : Permutation l l' -> NoDup (map fst l) -> zget l k = zget l' k.
Proof.
  intros P ND. destruct (zget l k) as [v|] eqn:E.
  - symmetry. apply (in_get _ zspec).
    + apply Permutation_NoDup with (map fst l); [now apply Permutation_map|exact ND].
    + apply Permutation_in with l; [exact P|]. now apply (get_in _ zspec).
  - destruct (zget l' k) as [v|] eqn:E'; [|reflexivity]. apply (get_in _ zspec) in E'.
    apply Permutation_in with (l' := l) in E'; [|now apply Permutation_sym]. apply (in_get _ zspec) in E'; [|exact ND]. congruence.
Qed.

Lemma run_switch h all s cs e (gen : stree -> list cstmt) :
  names_unique all -> In s all -> NoDup (map fst cs) ->
  (forall k, In k (map fst cs) -> case_const (type_length s) (s_signed s) k = k) ->
  crun h (switch_on all (s_name s) (map (fun c => (fst c, gen (snd c))) cs)) e =
  match zget cs (c_int (type_length s) (s_signed s) (c_mem e (member s))) with
  | Some t => crun h (gen t) e
  | None => Some e
  end.
Proof.
  intros U Hs ND CC. unfold switch_on. rewrite find_signal_in by assumption. cbn [crun]. rewrite cexec_switch.
  set (v := c_int _ _ _). set (l := map _ cs).
  assert (ND' : NoDup (map fst l)) by (unfold l; rewrite map_map; exact ND).
  assert (P : Permutation (sort_cases l) l) by apply sorted_py_perm.
  assert (F : find (fun c => case_const (type_length s) (s_signed s) (fst c) =? v) (sort_cases l) =
              option_map (fun b => (v, b)) (zget (sort_cases l) v)).
  { assert (CC' : forall k, In k (map fst (sort_cases l)) -> case_const (type_length s) (s_signed s) k = k).
    { intros k Hk. apply CC. apply Permutation_in with (l' := map fst l) in Hk; [|now apply Permutation_map].
      unfold l in Hk. now rewrite map_map in Hk. }
    clear -CC'. induction (sort_cases l) as [|[k b] r IH]; [reflexivity|]. cbn [find dget fst].
    rewrite CC' by now left. destruct (Z.eqb_spec k v) as [->|]; [reflexivity|]. apply IH. intros; apply CC'; now right. }
  assert (ND2 : NoDup (map fst (sort_cases l))).
  { apply Permutation_NoDup with (map fst l); [apply Permutation_map, Permutation_sym; exact P|exact ND']. }
  rewrite F, (zget_perm (sort_cases l) l) by assumption.
  assert (G : zget l v = option_map gen (zget cs v)).
  { unfold l. clear. induction cs as [|[k t] r IH]; [reflexivity|]. cbn. destruct (k =? v); auto. }
  rewrite G. destruct (zget cs v) as [t|]; cbn [option_map snd]; [|reflexivity].
  destruct (crun h (gen t) e); reflexivity.
Qed.

(** ** Buffers *)
Lemma set_byte_spec l i v : 0 <= i < zlen l -> exists l', set_byte l i v = Some l' /\ zlen l' = zlen l /\
  (bytes_ok l -> byte_ok v -> bytes_ok l') /\
  forall b, 0 <= b < 8 * zlen l -> payload_bit l' b = if b / 8 =? i then Z.testbit v (b mod 8) else payload_bit l b.
Proof.
  intros H. unfold set_byte. assert ((0 <=? i) && (i <? zlen l) = true) as -> by lia. eexists. split; [reflexivity|].
  unfold zlen in *. assert (L : List.length (firstn (Z.to_nat i) l) = Z.to_nat i) by (rewrite firstn_length; lia).
  split.
  { rewrite app_length, L. cbn [List.length]. rewrite skipn_length. lia. }
  split.
  { intros B V. apply Forall_app. split.
    - apply Forall_forall. intros x Hx. rewrite <- (firstn_skipn (Z.to_nat i)) in B. apply Forall_app in B.
      destruct B as [B _]. rewrite Forall_forall in B. auto.
    - constructor; [exact V|]. rewrite <- (firstn_skipn (S (Z.to_nat i))) in B. apply Forall_app in B. tauto. }
  intros b Hb. unfold payload_bit.
  assert (0 <= b / 8) by (apply Z.div_pos; lia).
  destruct (Z.eqb_spec (b / 8) i) as [<-|NE].
  - rewrite app_nth2 by lia. rewrite L, Nat.sub_diag. reflexivity.
  - destruct (Z.lt_ge_cases (b / 8) i).
    + rewrite app_nth1 by lia. f_equal. rewrite <- (firstn_skipn (Z.to_nat i) l) at 2. rewrite app_nth1 by lia. reflexivity.
    + rewrite app_nth2 by lia. rewrite L. f_equal.
      replace (Z.to_nat (b / 8) - Z.to_nat i)%nat with (S (Z.to_nat (b / 8) - S (Z.to_nat i))) by lia. cbn [nth].
      rewrite <- (firstn_skipn (S (Z.to_nat i)) l) at 2. rewrite app_nth2 by (rewrite firstn_length; lia).
      rewrite firstn_length. f_equal. lia.
Qed.

(** ** Packing *)

(** The buffer of [e'] is that of [e] with the bits [P] added. *)
Record adds (e e' : cstate) (P : Z -> Prop) : Prop := {
  ad_mem : c_mem e' = c_mem e;
  ad_len : zlen (c_buf e') = zlen (c_buf e);
  ad_ok : bytes_ok (c_buf e) -> bytes_ok (c_buf e');
  ad_bits : forall b, 0 <= b < 8 * zlen (c_buf e) ->
    (payload_bit (c_buf e') b = true <-> payload_bit (c_buf e) b = true \/ P b)
}.

Lemma adds_refl e P : (forall b, ~ P b) -> adds e e P.
Proof. intros H. split; auto. intros b Hb. specialize (H b). tauto. Qed.
Lemma adds_trans e e1 e2 P Q : adds e e1 P -> adds e1 e2 Q -> adds e e2 (fun b => P b \/ Q b).
Proof.
  intros [A1 A2 A3 A4] [B1 B2 B3 B4]. split; [congruence|congruence|auto|]. intros b Hb.
  rewrite B4 by congruence. rewrite A4 by assumption. tauto.
Qed.
Lemma adds_ext e e' P Q : (forall b, P b <-> Q b) -> adds e e' P -> adds e e' Q.
Proof. intros H [A1 A2 A3 A4]. split; auto. intros b Hb. rewrite A4, H by assumption. tauto. Qed.

(** Signals for which C types exist *)
Definition c_ok (s : signal) : Prop := s_length s <= 64 /\ (is_float s = true -> s_length s = 32 \/ s_length s = 64).

Definition value_at (local : bool) (n : string) (e : cstate) : option Z := if local then c_loc e n else Some (c_mem e n).

Lemma pack_segs h s w local n v : width_ok w -> 0 <= v < 2 ^ w -> s_length s <= w -> forall l e,
  Forall (seg_sound s 0 (s_length s)) l -> sig_fits (zlen (c_buf e)) s -> bytes_ok (c_buf e) -> value_at local n e = Some v ->
  exists e', crun h (map (fun g => let '(i, sh, d, mask) := g in CPackOr i d w local n sh mask)
                      (map (fun g => let '(i, sh, mask) := g in let (sh', d) := orient false sh in (i, sh', d, mask)) l)) e = Some e' /\
    adds e e' (fun b => exists i sh mk, In (i, sh, mk) l /\ b / 8 = i /\ Z.testbit mk (b mod 8) = true /\ Z.testbit v (b mod 8 - sh) = true).
Proof.
  intros W V LW. induction l as [|[[i sh] mk] l IH]; intros e F FIT BO VA.
  { exists e. split; [reflexivity|]. apply adds_refl. intros b (? & ? & ? & [] & _). }
  apply Forall_cons_iff in F. destruct F as [(S1 & S2 & S3 & (j0 & J0 & J1) & S4) F].
  destruct (pack_shift_spec w v sh mk) as (x & HX & BX & TX); auto; [lia|].
  assert (HI : 0 <= i < zlen (c_buf e)).
  { destruct (S4 _ J0 J1) as [K1 K2]. assert (O : occupies s (8 * i + j0)) by (exists (j0 - sh); split; [exact K1|exact K2]).
    apply FIT in O. lia. }
  destruct (set_byte_spec (c_buf e) i (Z.lor (nth (Z.to_nat i) (c_buf e) 0) x) HI) as (buf & HB & LB & OB & TB).
  set (e1 := mkCstate (c_mem e) (c_loc e) buf).
  assert (ST : crun h [let (sh', d) := orient false sh in CPackOr i d w local n sh' mk] e = Some e1).
  { destruct (orient false sh) as [sh' d]. cbn [crun cexec]. unfold value_at in VA. rewrite VA. unfold get_byte.
    assert ((0 <=? i) && (i <? zlen (c_buf e)) = true) as -> by lia. rewrite HX, HB. reflexivity. }
  assert (NB : byte_ok (nth (Z.to_nat i) (c_buf e) 0)).
  { unfold bytes_ok in BO. rewrite Forall_forall in BO. apply BO, nth_In. unfold zlen in HI. lia. }
  assert (A1 : adds e e1 (fun b => b / 8 = i /\ Z.testbit mk (b mod 8) = true /\ Z.testbit v (b mod 8 - sh) = true)).
  { split; [reflexivity|exact LB| |].
    - intros _. apply OB; [exact BO|]. unfold byte_ok in *. apply (testbit_bound _ 8); [lia|].
      intros k Hk. rewrite Z.lor_spec. rewrite !(testbit_high _ 8) by (cbn; lia). reflexivity.
    - intros b Hb. cbn [c_buf e1]. rewrite TB by assumption. pose proof (Z.mod_pos_bound b 8).
      destruct (Z.eqb_spec (b / 8) i) as [<-|NE].
      + rewrite Z.lor_spec, TX by lia. rewrite orb_true_iff, andb_true_iff. unfold payload_bit. tauto.
      + tauto. }
  destruct (IH e1) as (e2 & R & A2); auto; [cbn [c_buf e1]; now rewrite LB|now apply A1|].
  exists e2. split.
  - cbn [map]. rewrite <- R. destruct (orient false sh) as [sh' d]. cbn [crun] in ST |- *.
    destruct (cexec h _ e) as [e1'|]; [|discriminate]. injection ST as ->. reflexivity.
  - eapply adds_ext; [|eapply adds_trans; [exact A1|exact A2]]. intros b. split.
    + intros [H|(i' & sh' & mk' & HI' & H)]; [exists i, sh, mk; split; [now left|exact H]|].
      exists i', sh', mk'. split; [now right|exact H].
    + intros (i' & sh' & mk' & [EQ|HI'] & Q); [injection EQ as -> -> ->; now left|]. right. exists i', sh', mk'. now split.
Qed.

(** The bits of a signal with the digits of [v] *)
Definition signal_bits (s : signal) (v b : Z) : Prop := exists k, 0 <= k < s_length s /\ bit_pos s k = b /\ Z.testbit v k = true.

Lemma seg_bits s v b : 0 <= s_start s -> 0 < s_length s ->
  (exists i sh mk, In (i, sh, mk) (raw_segments s) /\ b / 8 = i /\ Z.testbit mk (b mod 8) = true /\ Z.testbit v (b mod 8 - sh) = true) <->
  signal_bits s v b.
Proof.
  intros Hs Hl. destruct (segments_spec s Hs Hl) as [S C]. rewrite Forall_forall in S. pose proof (Z.mod_pos_bound b 8). split.
  - intros (i & sh & mk & HI & E & T & V). apply S in HI. destruct HI as (_ & _ & _ & _ & HI).
    destruct (HI (b mod 8)) as [K P]; auto; [lia|]. exists (b mod 8 - sh). split; [exact K|]. split; [|exact V].
    rewrite P, <- E. pose proof (Z.div_mod b 8). lia.
  - intros (k & Hk & P & V). destruct (C k Hk) as (i & sh & mk & HI & J & T). exists i, sh, mk. split; [exact HI|].
    apply S in HI. destruct HI as (_ & _ & _ & _ & HI). destruct (HI _ J T) as [_ P'].
    replace (k + sh - sh) with k in P' by lia. rewrite P in P'.
    assert (b / 8 = i /\ b mod 8 = k + sh) as [E1 E2].
    { split.
      - symmetry. apply Z.div_unique with (k + sh); lia.
      - symmetry. apply Z.mod_unique with i; lia. }
    rewrite E2. split; [exact E1|]. split; [exact T|]. replace (k + sh - sh) with k by lia. exact V.
Qed.

Lemma member_width s : c_ok s -> member_size s = type_length s.
Proof.
  intros [L F]. unfold member_size. destruct (is_float s) eqn:E; [|reflexivity]. destruct (F eq_refl) as [H|H]; unfold type_length; now rewrite H.
Qed.

Lemma pack_signal_run h s e : c_ok s -> 0 <= s_start s -> 0 < s_length s -> sig_fits (zlen (c_buf e)) s -> bytes_ok (c_buf e) ->
  0 <= c_mem e (member s) < 2 ^ type_length s ->
  exists e', crun h (pack_signal s) e = Some e' /\ adds e e' (signal_bits s (c_mem e (member s))).
Proof.
  intros OK Hs Hl FIT BO V. unfold pack_signal. rewrite crun_app. set (v := c_mem e (member s)) in *.
  destruct (segments_spec s Hs Hl) as [S _]. pose proof (type_width s) as TW. pose proof (type_fits s (proj1 OK)) as TF.
  assert (PRE : exists e1, crun h (if is_float s then [CMemcpyFrom (member s) (type_length s) (member_size s)]
      else if s_signed s then [CCast (member s) (type_length s)] else []) e = Some e1 /\
      value_at (is_float s || s_signed s) (member s) e1 = Some v /\ c_mem e1 = c_mem e /\ c_buf e1 = c_buf e).
  { destruct (is_float s) eqn:F; cbn [orb].
    - rewrite member_width by assumption. cbn [crun cexec]. fold v. unfold memcpy_bits. rewrite Z.ltb_irrefl.
      replace (if h then v mod 2 ^ type_length s else v / 2 ^ (type_length s - type_length s)) with v.
      + cbn [option_map]. eexists. split; [reflexivity|]. cbn. unfold fset. rewrite String.eqb_refl. auto.
      + rewrite Z.mod_small by assumption. rewrite Z.sub_diag. cbn. rewrite Z.div_1_r. now destruct h.
    - destruct (s_signed s); cbn [crun cexec].
      + eexists. split; [reflexivity|]. cbn [value_at c_loc c_mem c_buf]. fold v. rewrite Z.mod_small by assumption.
        unfold fset. rewrite String.eqb_refl. auto.
      + exists e. cbn. auto. }
  destruct PRE as (e1 & -> & VA & EM & EB). rewrite <- EB in FIT, BO.
  destruct (pack_segs h s (type_length s) (is_float s || s_signed s) (member s) v TW V TF (raw_segments s) e1 S FIT BO VA) as (e2 & R & A).
  exists e2. split; [exact R|]. destruct A as [A1 A2 A3 A4]. rewrite EB in *. split; [congruence|congruence|auto|].
  intros b Hb. rewrite A4 by assumption. now rewrite seg_bits.
Qed.

(** ** Unpacking *)

(** Value representation a member should get from a payload *)
Definition member_rep (data : list Z) (s : signal) : Z :=
  if is_float s then digits (fun k => payload_bit data (bit_pos s k)) (Z.to_nat (s_length s))
  else read_int data s mod 2 ^ type_length s.

(** [e'] is [e] with a new value of [n] (member or local). *)
Definition assigned (local : bool) (n : string) (v : Z) (e e' : cstate) : Prop :=
  value_at local n e' = Some v /\ c_buf e' = c_buf e /\
  (if local then c_mem e' = c_mem e else forall k, k <> n -> c_mem e' k = c_mem e k).

Lemma assigned_trans local n v v' e e1 e2 : assigned local n v e e1 -> assigned local n v' e1 e2 -> assigned local n v' e e2.
Proof.
  intros (A1 & A2 & A3) (B1 & B2 & B3). split; [exact B1|]. split; [congruence|]. destruct local; [congruence|].
  intros k Hk. rewrite B3, A3; auto.
Qed.

Lemma unpack_segs h s w local n : width_ok w -> s_length s <= w -> forall l (first : bool) e v,
  Forall (seg_sound s 0 (s_length s)) l -> sig_fits (zlen (c_buf e)) s -> bytes_ok (c_buf e) ->
  (if first then l <> [] /\ v = 0 else value_at local n e = Some v) -> 0 <= v < 2 ^ w ->
  exists e' v', 
    crun h (match map (fun g => let '(i, sh, d, mask) := g in fun first => CUnpack local first n d w i sh mask)
                  (map (fun g => let '(i, sh, mask) := g in let (sh', d) := orient true sh in (i, sh', d, mask)) l)
            with [] => [] | x :: r => x first :: map (fun x => x false) r end) e = Some e' /\
    assigned local n v' e e' /\ 0 <= v' < 2 ^ w /\
    forall k, 0 <= k -> (Z.testbit v' k = true <-> Z.testbit v k = true \/ 
      exists i sh mk, In (i, sh, mk) l /\ 0 <= k + sh < 8 /\ Z.testbit mk (k + sh) = true /\ payload_bit (c_buf e) (8 * i + (k + sh)) = true).
Proof.
  intros W LW. induction l as [|[[i sh] mk] l IH]; intros first e v F FIT BO VA V.
  { destruct first; [destruct VA as [[] _]; reflexivity|]. exists e, v. split; [reflexivity|].
    split. { split; [exact VA|]. split; [reflexivity|]. now destruct local. }
    split; [exact V|]. intros k Hk. split; [auto|]. intros [H|(i & sh & mk & [] & _)]. exact H. }
  apply Forall_cons_iff in F. destruct F as [(S1 & S2 & S3 & (j0 & J0 & J1) & S4) F].
  assert (HI : 0 <= i < zlen (c_buf e)).
  { destruct (S4 _ J0 J1) as [K1 K2]. assert (O : occupies s (8 * i + j0)) by (exists (j0 - sh); split; [exact K1|exact K2]).
    apply FIT in O. lia. }
  assert (NB : byte_ok (nth (Z.to_nat i) (c_buf e) 0)).
  { unfold bytes_ok in BO. rewrite Forall_forall in BO. apply BO, nth_In. unfold zlen in HI. lia. }
  destruct (unpack_shift_spec w (nth (Z.to_nat i) (c_buf e) 0) sh mk) as (x & HX & BX & TX); auto; [lia|].
  assert (ST : exists e1, cexec h (let (sh', d) := orient true sh in CUnpack local first n d w i sh' mk) e = Some e1 /\
                assigned local n (Z.lor v x) e e1).
  { destruct (orient true sh) as [sh' d]. cbn [cexec]. unfold get_byte.
    assert ((0 <=? i) && (i <? zlen (c_buf e)) = true) as -> by lia. rewrite HX.
    assert ((if first then Some 0 else if local then c_loc e n else Some (c_mem e n)) = Some v) as ->.
    { destruct first; [now destruct VA as [_ ->]|exact VA]. }
    eexists. split; [reflexivity|]. unfold assigned, value_at, fset.
    destruct local; cbn; rewrite String.eqb_refl; [auto|]. split; [auto|]. split; [reflexivity|].
    intros k Hk. apply String.eqb_neq in Hk. now rewrite Hk. }
  destruct ST as (e1 & ST & A1). destruct A1 as (A11 & A12 & A13) eqn:EA. clear EA.
  assert (B' : 0 <= Z.lor v x < 2 ^ w).
  { apply testbit_bound; [unfold width_ok in W; lia|]. intros k Hk. rewrite Z.lor_spec. rewrite !(testbit_high _ w) by assumption. reflexivity. }
  destruct (IH false e1 (Z.lor v x)) as (e2 & v2 & R & A2 & B2 & T2); auto; [now rewrite A12|now rewrite A12|].
  exists e2, v2. split; [|split; [|split; [exact B2|]]].
  - cbn [map]. destruct (orient true sh) as [sh' d]. cbn [crun]. rewrite ST. rewrite <- R. f_equal.
    clear. destruct l as [|[[i' s'] m'] l]; [reflexivity|]. reflexivity.
  - eapply assigned_trans; [split; eauto|exact A2].
  - intros k Hk. rewrite T2, A12 by assumption. rewrite Z.lor_spec, TX by assumption. rewrite orb_true_iff.
    assert (SEG : (k <? w) && Z.testbit (Z.land (nth (Z.to_nat i) (c_buf e) 0) mk) (k + sh) = true <->
      (0 <= k + sh < 8 /\ Z.testbit mk (k + sh) = true /\ payload_bit (c_buf e) (8 * i + (k + sh)) = true)).
    { assert (PB : 0 <= k + sh < 8 -> payload_bit (c_buf e) (8 * i + (k + sh)) = Z.testbit (nth (Z.to_nat i) (c_buf e) 0) (k + sh)).
      { intros J. unfold payload_bit.
        replace ((8 * i + (k + sh)) / 8) with i by (apply Z.div_unique with (k + sh); lia).
        replace ((8 * i + (k + sh)) mod 8) with (k + sh) by (apply Z.mod_unique with i; lia). reflexivity. }
      rewrite Z.land_spec, !andb_true_iff. split.
      - intros (_ & T & M). assert (J : 0 <= k + sh < 8).
        { destruct (Z.lt_ge_cases (k + sh) 0); [rewrite Z.testbit_neg_r in T by lia; discriminate|].
          destruct (Z.lt_ge_cases (k + sh) 8); [lia|]. rewrite (testbit_high mk 8) in M by (cbn; lia). discriminate. }
        rewrite PB by assumption. auto.
      - intros (J & M & P). rewrite PB in P by assumption. split; [|auto]. destruct (S4 _ J M) as [K _]. lia. }
    rewrite SEG. split.
    + intros [[H|H]|(i' & sh' & mk' & I' & H)]; [now left|right; exists i, sh, mk; split; [now left|exact H]|].
      right. exists i', sh', mk'. split; [now right|exact H].
    + intros [H|(i' & sh' & mk' & [EQ|I'] & Q)]; [auto|injection EQ as -> -> ->; auto|]. right. exists i', sh', mk'. auto.
Qed.

Lemma segments_nonempty s : 0 < s_length s -> raw_segments s <> [].
Proof.
  intros H. unfold raw_segments. destruct (Z.to_nat (s_length s)) as [|f] eqn:E; [lia|]. cbn [seg_loop].
  destruct (Z.ltb_spec 0 (s_length s)); [|lia].
  destruct (if s_big s then _ else _) as [[[a b] c] d]. discriminate.
Qed.

Lemma sign_extend v n w : 0 < n < w -> 0 <= v < 2 ^ n ->
  (if Z.land v (2 ^ (n - 1)) =? 0 then v else Z.lor v ((2 ^ (w - n) - 1) * 2 ^ n) mod 2 ^ w) =
  (if Z.testbit v (n - 1) then v - 2 ^ n else v) mod 2 ^ w.
Proof.
  intros N V. assert (P := pow_mono n w ltac:(lia)).
  assert (L : Z.land v (2 ^ (n - 1)) =? 0 = negb (Z.testbit v (n - 1))).
  { destruct (Z.testbit v (n - 1)) eqn:T; cbn [negb].
    - apply Z.eqb_neq. intros E. assert (Z.testbit (Z.land v (2 ^ (n - 1))) (n - 1) = true).
      { rewrite Z.land_spec, T, Z.pow2_bits_true by lia. reflexivity. }
      rewrite E, Z.bits_0 in H. discriminate.
    - apply Z.eqb_eq. apply Z.bits_inj'. intros k Hk. rewrite Z.land_spec, Z.bits_0.
      destruct (Z.eq_dec k (n - 1)) as [->|]; [now rewrite T|]. rewrite Z.pow2_bits_false by lia. apply andb_false_r. }
  rewrite L. destruct (Z.testbit v (n - 1)); cbn [negb]; [|now rewrite Z.mod_small by lia].
  apply Z.bits_inj'. intros k Hk.
  destruct (Z.lt_ge_cases k w); [|now rewrite !Z.mod_pow2_bits_high by lia].
  rewrite !Z.mod_pow2_bits_low by lia. rewrite Z.lor_spec.
  destruct (Z.lt_ge_cases k n).
  - rewrite Z.mul_pow2_bits_low by lia. rewrite orb_false_r.
    replace (v - 2 ^ n) with (v + (-1) * 2 ^ n) by lia.
    rewrite <- (Z.mod_pow2_bits_low (v + _) n) by lia. rewrite Z.mod_add by lia. now rewrite Z.mod_small by lia.
  - rewrite (testbit_high v n) by lia. cbn [orb]. rewrite Z.mul_pow2_bits by lia.
    rewrite <- (Z.ones_equiv (w - n)) || replace (2 ^ (w - n) - 1) with (Z.ones (w - n)) by (rewrite Z.ones_equiv; lia).
    rewrite Z.ones_spec_low by lia.
    symmetry. replace k with ((k - n) + n) by lia. rewrite <- Z.div_pow2_bits by lia.
    replace (v - 2 ^ n) with (v + (-1) * 2 ^ n) by lia. rewrite Z.div_add by lia. rewrite Z.div_small by lia.
    change (0 + -1) with (-1). apply Z.bits_m1. lia.
Qed.

Lemma unpack_signal_run h s e : c_ok s -> 0 <= s_start s -> 0 < s_length s -> sig_fits (zlen (c_buf e)) s -> bytes_ok (c_buf e) ->
  exists e', crun h (unpack_signal s) e = Some e' /\ c_buf e' = c_buf e /\
    c_mem e' (member s) = member_rep (c_buf e) s /\ forall k, k <> member s -> c_mem e' k = c_mem e k.
Proof.
  intros OK Hs Hl FIT BO. unfold unpack_signal. set (local := is_float s || s_signed s) in *. rewrite crun_app.
  pose proof (type_width s) as TW. pose proof (type_fits s (proj1 OK)) as TF. set (w := type_length s) in *. set (n := member s) in *.
  destruct (segments_spec s Hs Hl) as [S C].
  destruct (unpack_segs h s w local n TW TF (raw_segments s) true e 0 S FIT BO) as (e1 & v & R & (A1 & A2 & A3) & B & T).
  { split; [now apply segments_nonempty|reflexivity]. }
  { unfold width_ok in TW. assert (0 < 2 ^ w) by lia. lia. }
  unfold segments. rewrite R. clear R.
  set (u := digits (fun k => payload_bit (c_buf e) (bit_pos s k)) (Z.to_nat (s_length s))).
  assert (UB := digits_bound (fun k => payload_bit (c_buf e) (bit_pos s k)) (Z.to_nat (s_length s))). fold u in UB. rewrite Z2Nat.id in UB by lia.
  rewrite Forall_forall in S.
  assert (VU : v = u).
  { assert (TT : forall k, 0 <= k -> (Z.testbit v k = true <-> k < s_length s /\ payload_bit (c_buf e) (bit_pos s k) = true)).
    { intros k Hk. rewrite T, Z.bits_0 by assumption. split.
      - intros [H|(i & sh & mk & HI & J & M & P)]; [discriminate|]. apply S in HI. destruct HI as (_ & _ & _ & _ & HI).
        destruct (HI _ J M) as [K1 K2]. replace (k + sh - sh) with k in * by lia. rewrite K2. split; [lia|exact P].
      - intros [K P]. right. destruct (C k) as (i & sh & mk & HI & J & M); [lia|]. exists i, sh, mk. split; [exact HI|].
        apply S in HI. destruct HI as (_ & _ & _ & _ & HI). destruct (HI _ J M) as [K1 K2].
        replace (k + sh - sh) with k in * by lia. rewrite K2 in P. auto. }
    symmetry. apply digits_of_bits; auto.
    - apply testbit_bound; [lia|]. intros k Hk. destruct (Z.testbit v k) eqn:E; [|reflexivity]. apply TT in E; lia.
    - intros k Hk. apply eq_true_iff_eq. rewrite TT by lia. split; [auto|intros []; auto]. split; [lia|assumption]. }
  subst v. unfold member_rep. fold u.
  assert (RI : read_int (c_buf e) s = if s_signed s && Z.testbit u (s_length s - 1) then u - 2 ^ s_length s else u).
  { unfold read_int. fold u. do 2 f_equal. unfold u. rewrite digits_testbit by lia. assert (s_length s - 1 <? Z.of_nat (Z.to_nat (s_length s)) = true) as -> by lia. reflexivity. }
  rewrite RI. clear RI T. fold w. unfold value_at in A1.
  destruct (is_float s) eqn:F; cbn [orb] in local; subst local; cbn [orb] in *.
  - assert (MW := member_width s OK). fold w in MW. rewrite MW. cbn [crun cexec]. rewrite A1. unfold memcpy_bits. rewrite Z.ltb_irrefl.
    cbn [option_map]. eexists. split; [reflexivity|]. cbn [c_buf c_mem]. unfold fset. rewrite String.eqb_refl. split; [exact A2|]. split.
    + rewrite Z.sub_diag, Z.pow_0_r, Z.div_1_r, Z.mod_small by assumption. now destruct h.
    + intros k Hk. apply String.eqb_neq in Hk. rewrite Hk. now rewrite A3.
  - destruct (s_signed s) eqn:SG.
    + assert (WP : 0 < 2 ^ w) by lia.
      assert (EXT : exists e2, crun h (if 2 ^ (w - s_length s) - 1 =? 0 then []
          else [CSignExtend n w (s_length s - 1) ((2 ^ (w - s_length s) - 1) * 2 ^ s_length s)]) e1 = Some e2 /\
          exists v, c_loc e2 n = Some v /\ v mod 2 ^ w = (if Z.testbit u (s_length s - 1) then u - 2 ^ s_length s else u) mod 2 ^ w /\
          c_mem e2 = c_mem e1 /\ c_buf e2 = c_buf e1).
      { destruct (Z.eqb_spec (2 ^ (w - s_length s) - 1) 0) as [EQ|NE].
        - exists e1. split; [reflexivity|]. exists u. split; [exact A1|]. split; [|auto].
          assert (w = s_length s).
          { destruct (Z.eq_dec w (s_length s)); [assumption|]. assert (Q := Z.pow_gt_1 2 (w - s_length s)). lia. }
          destruct (Z.testbit u _); [|reflexivity]. replace (s_length s) with w by assumption.
          replace (u - 2 ^ w) with (u + (-1) * 2 ^ w) by lia. now rewrite Z.mod_add by lia.
        - assert (0 < s_length s < w).
          { destruct (Z.eq_dec w (s_length s)) as [E|]; [|lia]. rewrite E, Z.sub_diag in NE. cbn in NE. lia. }
          assert (ONE : c_shl (Z.max 32 w) 1 (s_length s - 1) = Some (2 ^ (s_length s - 1))).
          { unfold c_shl. destruct (Z.leb_spec (Z.max 32 w) 16); [lia|]. destruct (Z.ltb_spec (s_length s - 1) (Z.max 32 w)); [|lia].
            rewrite Z.mul_1_l. rewrite Z.mod_small; [reflexivity|]. split; [lia|]. apply Z.pow_lt_mono_r; lia. }
          cbn [crun cexec]. rewrite A1, ONE. eexists. split; [reflexivity|]. cbn [c_loc c_mem c_buf]. eexists.
          unfold fset. rewrite String.eqb_refl. split; [reflexivity|]. split; [|auto]. rewrite sign_extend by assumption. now rewrite Z.mod_mod by lia. }
      destruct EXT as (e2 & -> & v & V1 & V2 & V3 & V4) || (rewrite crun_app; destruct EXT as (e2 & -> & v & V1 & V2 & V3 & V4)).
      cbn [crun cexec]. rewrite V1. eexists. split; [reflexivity|]. cbn [c_buf c_mem]. split; [congruence|]. split.
      * unfold fset. rewrite String.eqb_refl. cbn [andb]. exact V2.
      * intros k Hk. apply String.eqb_neq in Hk. unfold fset. rewrite Hk, V3. now rewrite A3.
    + cbn [crun]. exists e1. split; [reflexivity|]. split; [exact A2|]. injection A1 as A1. split; [|exact A3].
      cbn [andb]. rewrite A1. symmetry. apply Z.mod_small. exact B.
Qed.
