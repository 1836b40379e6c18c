(** Prop_Container: properties C21 to C23 of container messages. *)
From Coq Require Import Floats.SpecFloat.
From Verif Require Import Base PyNum Conversion Signal Formats Message Container LayoutSpec CodecSpec
     DictLemmas BitsLemmas NodeProofs Construct CodecThms RoundTrip MsgThms Examples Prop_Codec.
Ltac Zify.zify_post_hook ::= Z.div_mod_to_equations.

(** ** Specification: the layout of a container frame *)
(** Three header id bytes, one length byte, the payload. *)
Definition id_bytes (big : bool) (id : Z) : list Z :=
  let b := [id / 65536; id / 256 mod 256; id mod 256] in if big then b else rev b.
Definition item_bytes (big : bool) (it : Z * list Z) : list Z :=
  id_bytes big (fst it) ++ [zlen (snd it)] ++ snd it.
Definition frame_bytes (big : bool) (its : list (Z * list Z)) : list Z := List.concat (map (item_bytes big) its).

(** No two contained messages share a header id. *)
Definition header_ids_unique (c : container) : Prop :=
  forall x y z, In x (cn_contained c) -> In y (cn_contained c) ->
    ct_header x = Some z -> ct_header y = Some z -> x = y.
Definition ids_listed_once (c : container) : Prop := NoDup (cn_contained c) /\ header_ids_unique c.

(** How unpacking presents a header id: the contained message, or the id itself if it is unknown. *)
Definition presented (c : container) (id : Z) (k : Z + contained) : Prop :=
  match k with
  | inr x => In x (cn_contained c) /\ ct_header x = Some id
  | inl z => z = id /\ forall x, In x (cn_contained c) -> ct_header x <> Some id
  end.

(** The header id and payload requested by an element of the list given to encode. *)
Definition requested (c : container) (scaling padding : bool) (it : header * payload) (id : Z) (body : list Z) : Prop :=
  let known x := In x (cn_contained c) /\ ct_header x = Some id in
  match fst it with
  | HInt z => z = id
  | HMsg x => ct_header x = Some id
  | HName n => exists x, known x /\ m_name (ct_msg x) = n
  end /\
  match snd it with
  | PBytes l => body = l
  | PDict d => exists x, known x /\ encode (ct_msg x) d scaling padding false = Ok body
  end.

Lemma opt_eqb_spec a b : option_eqb Z.eqb a b = true <-> a = b.
Proof.
  destruct a as [x|], b as [y|]; cbn; split; try discriminate; try reflexivity.
  - intros H. apply Z.eqb_eq in H. now subst.
  - intros [= ->]. apply Z.eqb_refl.
Qed.

Lemma one_found {A} (f : A -> bool) l r :
  match filter f l with [] => Ok None | [x] => Ok (Some x) | _ => Err CantoolsError end = Ok r ->
  match r with
  | Some x => In x l /\ f x = true
  | None => forall x, In x l -> f x = false
  end.
Proof.
  destruct (filter f l) as [|x [|y t]] eqn:E; intros H; try discriminate; apply Ok_inj in H; subst r.
  - intros x Hx. destruct (f x) eqn:F; [|reflexivity]. exfalso.
    assert (G : In x (filter f l)) by (apply filter_In; auto). rewrite E in G. contradiction.
  - assert (G : In x (filter f l)) by (rewrite E; now left). now apply filter_In in G.
Qed.

Lemma by_id_spec c id o : by_header_id c (Some id) = Ok o ->
  presented c id (match o with None => inl id | Some x => inr x end).
Proof.
  intros H. apply one_found in H. destruct o as [x|]; cbn.
  - destruct H as [H1 H2]. apply opt_eqb_spec in H2. auto.
  - split; [reflexivity|]. intros x Hx E. specialize (H x Hx). rewrite E in H. cbn in H. now rewrite Z.eqb_refl in H.
Qed.

Lemma by_id_total c id : ids_listed_once c -> exists o, by_header_id c (Some id) = Ok o.
Proof.
  intros [ND U]. unfold by_header_id.
  assert (NF : NoDup (filter (fun x => option_eqb Z.eqb (ct_header x) (Some id)) (cn_contained c))) by now apply NoDup_filter.
  destruct (filter _ (cn_contained c)) as [|x [|y t]] eqn:E; eauto. exfalso.
  assert (Gx : In x (filter (fun x => option_eqb Z.eqb (ct_header x) (Some id)) (cn_contained c))) by (rewrite E; cbn; auto).
  assert (Gy : In y (filter (fun x => option_eqb Z.eqb (ct_header x) (Some id)) (cn_contained c))) by (rewrite E; cbn; auto).
  apply filter_In in Gx, Gy. destruct Gx as [X1 X2], Gy as [Y1 Y2]. apply opt_eqb_spec in X2, Y2.
  assert (x = y) by (eapply U; eauto). subst. inversion NF as [|? ? N _]; subst. apply N. now left.
Qed.

Lemma to3_be id l : to_bytes_be 3 id = Ok l -> 0 <= id < 2 ^ 24 /\ l = id_bytes true id.
Proof.
  unfold to_bytes_be. destruct ((0 <=? id) && (id <? 256 ^ Z.of_nat 3)) eqn:E; [|discriminate].
  intros H. apply Ok_inj in H. change (256 ^ Z.of_nat 3) with (2 ^ 24) in E. split; [lia|]. subst l.
  unfold to_be, id_bytes. cbn [to_le rev app].
  assert (id / 256 / 256 mod 256 = id / 65536) as ->; [|reflexivity].
  rewrite Z.div_div by lia. change (256 * 256) with 65536. apply Z.mod_small. change (2 ^ 24) with 16777216 in E. lia.
Qed.
Lemma to3_le id l : to_bytes_le 3 id = Ok l -> 0 <= id < 2 ^ 24 /\ l = id_bytes false id.
Proof.
  unfold to_bytes_le. intros H. assert (G : to_bytes_be 3 id = Ok (rev l)).
  { unfold to_bytes_be, to_be. destruct (_ && _); [|discriminate]. apply Ok_inj in H. now subst. }
  apply to3_be in G. destruct G as [G1 G2]. split; [assumption|]. unfold id_bytes in *. rewrite <- G2. now rewrite rev_involutive.
Qed.
Lemma to1 n l : 0 <= n -> to_bytes_be 1 n = Ok l -> n < 256 /\ l = [n].
Proof.
  intros Hn. unfold to_bytes_be. destruct ((0 <=? n) && (n <? 256 ^ Z.of_nat 1)) eqn:E; [|discriminate].
  change (256 ^ Z.of_nat 1) with 256 in E. intros H. apply Ok_inj in H. split; [lia|]. subst l. cbn.
  f_equal. apply Z.mod_small. lia.
Qed.
Lemma from3 id : 0 <= id < 2 ^ 24 -> from_be [id / 65536; id / 256 mod 256; id mod 256] = id.
Proof. intros H. change (2 ^ 24) with 16777216 in H. cbn [from_be rev app from_le]. unfold from_be. cbn [rev app from_le]. lia. Qed.

(** encode: the elements of the list, one after the other *)
Lemma encode_items_spec c items sc pad bytes :
  encode_items c items sc pad = Ok bytes ->
  exists its, bytes = frame_bytes (cn_big_header c) its /\
    Forall2 (fun it x => requested c sc pad it (fst x) (snd x) /\ 0 <= fst x < 2 ^ 24 /\ zlen (snd x) < 256) items its.
Proof.
  revert bytes. induction items as [|[h p] r IH]; intros bytes H; cbn [encode_items] in H.
  - apply Ok_inj in H. subst. exists []. split; [reflexivity|constructor].
  - apply bind_ok in H. destruct H as (o & H1 & H). apply bind_ok in H. destruct H as (id & H2 & H).
    apply bind_ok in H. destruct H as (body & H3 & H). apply bind_ok in H. destruct H as (hd & H4 & H).
    apply bind_ok in H. destruct H as (ln & H5 & H). apply bind_ok in H. destruct H as (rest & H6 & H).
    apply Ok_inj in H. destruct (IH rest H6) as (its & -> & F).
    apply to1 in H5; [|unfold zlen; lia]. destruct H5 as [L ->].
    assert (HD : 0 <= id < 2 ^ 24 /\ hd = id_bytes (cn_big_header c) id).
    { destruct (cn_big_header c); [now apply to3_be|now apply to3_le]. }
    destruct HD as [B ->]. exists ((id, body) :: its). split.
    + subst bytes. unfold frame_bytes. cbn [map List.concat]. unfold item_bytes at 2. cbn [fst snd]. now rewrite <- !app_assoc.
    + constructor; [|assumption]. cbn [fst snd]. split; [|auto]. unfold requested. cbn [fst snd].
      assert (KN : forall x, o = Some x -> In x (cn_contained c) /\ ct_header x = Some id).
      { intros x ->. cbn in H2. destruct (ct_header x) as [z|] eqn:EH; [|discriminate]. apply Ok_inj in H2. subst z.
        split; [|reflexivity]. destruct h; cbn in H1; apply one_found in H1; tauto. }
      split.
      * destruct h as [n|x|z]; cbn in H1.
        -- destruct o as [x|]; [|destruct p; discriminate]. exists x. split; [now apply KN|].
           apply one_found in H1. destruct H1 as [_ H1]. now apply String.eqb_eq in H1.
        -- destruct o as [y|]; [|destruct p; discriminate]. destruct (KN y eq_refl) as [_ K].
           apply one_found in H1. destruct H1 as [_ H1]. apply opt_eqb_spec in H1. congruence.
        -- destruct o as [y|].
           ++ destruct (KN y eq_refl) as [_ K]. apply one_found in H1. destruct H1 as [_ H1]. apply opt_eqb_spec in H1. congruence.
           ++ destruct p; [|discriminate]. cbn in H2. now apply Ok_inj in H2.
      * destruct p as [l|d]; cbn in H3.
        -- now apply Ok_inj in H3.
        -- destruct o as [x|]; [|discriminate]. exists x. auto.
Qed.

(** unpack: inductive reading of the data *)
Inductive reads (c : container) (truncated : bool) : list Z -> list ((Z + contained) * list Z) -> Prop :=
| reads_end : forall rest, zlen rest < 4 -> reads c truncated rest []
| reads_item : forall a b d body rest k out,
    presented c (from_be [a; b; d]) k -> reads c truncated rest out ->
    reads c truncated ([a; b; d; zlen body] ++ body ++ rest) ((k, body) :: out)
| reads_cut : forall a b d len body k,
    truncated = true -> presented c (from_be [a; b; d]) k -> zlen body < len ->
    reads c truncated ([a; b; d; len] ++ body) [(k, body)].

(** The data end inside a payload: some elements, then a header whose length exceeds the rest. *)
Inductive overlong : list Z -> Prop :=
| overlong_here : forall a b d len rest, zlen rest < len -> overlong ([a; b; d; len] ++ rest)
| overlong_later : forall a b d body rest, overlong rest -> overlong ([a; b; d; zlen body] ++ body ++ rest).

Lemma split_body (rest : list Z) len : 0 <= len <= zlen rest ->
  rest = slice 0 len rest ++ skipn (Z.to_nat len) rest /\ zlen (slice 0 len rest) = len.
Proof.
  intros H. unfold slice, zlen in *. cbn [Z.to_nat skipn]. rewrite Z.sub_0_r. split; [symmetry; apply firstn_skipn|].
  rewrite firstn_length. lia.
Qed.

Lemma unpack_loop_spec c tr : ids_listed_once c -> forall fuel data, bytes_ok data -> (List.length data < fuel)%nat ->
  match unpack_loop fuel c data tr with
  | Ok out => reads c tr data out
  | Err e => e = DecodeError /\ tr = false /\ overlong data
  end.
Proof.
  intros U. induction fuel as [|fuel IH]; intros data BO HL; [lia|]. cbn [unpack_loop].
  destruct data as [|a [|b [|d [|len rest]]]]; try (apply reads_end; cbn; lia).
  inversion BO as [|? ? B1 BO1]; subst. inversion BO1 as [|? ? B2 BO2]; subst. inversion BO2 as [|? ? B3 BO3]; subst.
  inversion BO3 as [|? ? B4 BO4]; subst. unfold byte_ok in B4.
  destruct (by_id_total c (from_be [a; b; d]) U) as [o EO]. assert (PR := by_id_spec c _ o EO).
  cbn [List.length] in HL.
  destruct (Z.ltb_spec (zlen rest) len) as [LT|GE].
  - destruct tr; cbn [bind].
    + destruct (split_body rest (zlen rest)) as [S1 S2]; [unfold zlen; lia|].
      rewrite EO. cbn [bind]. set (body := slice 0 (zlen rest) rest) in *.
      assert (SK : skipn (Z.to_nat (zlen rest)) rest = []) by (apply skipn_all2; unfold zlen; lia).
      rewrite SK in *. rewrite app_nil_r in S1. rewrite <- S1 in *.
      destruct fuel as [|fuel']; [lia|]. cbn [unpack_loop bind]. apply (reads_cut c true a b d len); auto.
    + split; [reflexivity|]. split; [reflexivity|]. now apply overlong_here.
  - cbn [bind]. rewrite EO. cbn [bind].
    destruct (split_body rest len) as [S1 S2]; [lia|]. set (body := slice 0 len rest) in *. set (tl := skipn (Z.to_nat len) rest) in *.
    assert (BT : bytes_ok tl) by (rewrite S1 in BO4; apply Forall_app in BO4; apply BO4).
    specialize (IH tl BT). assert (LT : (List.length tl < fuel)%nat).
    { unfold tl. rewrite skipn_length. lia. }
    specialize (IH LT). destruct (unpack_loop fuel c tl tr) as [out|e] eqn:E; cbn [bind].
    + rewrite S1, <- S2. change ([a; b; d; zlen body] ++ (body ++ tl)) with (a :: b :: d :: zlen body :: body ++ tl).
      now apply (reads_item c tr a b d body tl).
    + destruct IH as (-> & T & O). split; [reflexivity|]. split; [assumption|]. rewrite S1, <- S2.
      now apply (overlong_later a b d body tl).
Qed.

(** ** C22 *)
Theorem C22_unpack_total c data allow_truncated :
  ids_listed_once c -> is_container c = true -> bytes_ok data -> zlen data <= cn_length c ->
  match unpack_container c data allow_truncated with
  | Ok out => reads c allow_truncated data out
  | Err e => e = DecodeError /\ allow_truncated = false /\ overlong data
  end.
Proof.
  intros U IC BO HL. unfold unpack_container. rewrite IC. cbn [negb].
  destruct (Z.ltb_spec (cn_length c) (zlen data)); [lia|]. apply unpack_loop_spec; auto.
Qed.
Lemma reads_not_overlong c data out : reads c false data out -> overlong data -> False.
Proof.
  induction 1 as [rest L|a b d body rest k out P R IH|a b d len body k T P L]; [| |discriminate].
  - intros O. inversion O; subst; unfold zlen in L; cbn [List.length app] in L; lia.
  - intros O. remember ([a; b; d; zlen body] ++ body ++ rest) as dd eqn:E.
    destruct O as [a' b' d' len' rest' L|a' b' d' body' rest' O'].
    + cbn [app] in E. injection E as -> -> -> -> E'. subst rest'. unfold zlen in L. rewrite app_length in L. lia.
    + cbn [app] in E. injection E as -> -> -> EL E'. apply IH.
      assert (HL : List.length body' = List.length body) by (unfold zlen in EL; lia).
      assert (HR : rest' = rest).
      { apply (f_equal (skipn (List.length body'))) in E'. rewrite HL in E' at 2.
        rewrite !skipn_app, !skipn_all, !Nat.sub_diag in E'. exact E'. }
      now subst rest'.
Qed.

Theorem C22_overlong_rejected c data :
  ids_listed_once c -> is_container c = true -> bytes_ok data -> zlen data <= cn_length c -> overlong data ->
  unpack_container c data false = Err DecodeError.
Proof.
  intros U IC BO HL O. assert (H := C22_unpack_total c data false U IC BO HL).
  destruct (unpack_container c data false) as [out|e].
  - destruct (reads_not_overlong _ _ _ H O).
  - now destruct H as (-> & _).
Qed.
Theorem C22_too_long_rejected c data allow_truncated :
  cn_length c < zlen data -> unpack_container c data allow_truncated = Err DecodeError.
Proof.
  intros H. unfold unpack_container. destruct (negb (is_container c)); [reflexivity|].
  destruct (Z.ltb_spec (cn_length c) (zlen data)); [reflexivity|lia].
Qed.

(** Headers plus payloads are a prefix of the data, at most 3 bytes are left over; with
    allow_truncated the last payload may be shorter than its length field says, and then nothing is
    left over. *)
Theorem C22_lossless c data allow_truncated out :
  ids_listed_once c -> is_container c = true -> bytes_ok data -> zlen data <= cn_length c ->
  unpack_container c data allow_truncated = Ok out ->
  exists its rest, Forall2 (fun it o => presented c (fst it) (fst o) /\ snd it = snd o) its out /\
    ((data = frame_bytes true its ++ rest /\ zlen rest <= 3) \/
     (allow_truncated = true /\ rest = [] /\ exists first id body len,
        its = first ++ [(id, body)] /\ zlen body < len /\
        data = frame_bytes true first ++ id_bytes true id ++ [len] ++ body)).
Proof.
  intros U IC BO HL H. assert (R := C22_unpack_total c data allow_truncated U IC BO HL). rewrite H in R. clear H HL IC.
  assert (ID : forall a b d, byte_ok a -> byte_ok b -> byte_ok d -> id_bytes true (from_be [a; b; d]) = [a; b; d]).
  { intros a b d A B D. unfold byte_ok in *. unfold id_bytes, from_be. cbn [rev app from_le].
    f_equal; [lia|]. f_equal; [lia|]. f_equal. lia. }
  induction R as [rest L|a b d body rest k out P R IH|a b d len body k T P L].
  - exists [], rest. split; [constructor|]. left. split; [reflexivity|lia].
  - cbn [app] in BO. inversion BO as [|? ? B1 BO1]; subst. inversion BO1 as [|? ? B2 BO2]; subst. inversion BO2 as [|? ? B3 BO3]; subst.
    inversion BO3 as [|? ? B4 BO4]; subst. apply Forall_app in BO4. destruct BO4 as [BB BR].
    destruct (IH BR) as (its & rst & F & D).
    exists ((from_be [a; b; d], body) :: its), rst. split; [constructor; auto|].
    assert (FR : forall l, frame_bytes true ((from_be [a; b; d], body) :: l) = [a; b; d; zlen body] ++ body ++ frame_bytes true l).
    { intros l. unfold frame_bytes. cbn [map List.concat]. unfold item_bytes at 1. cbn [fst snd]. rewrite ID by assumption.
      now rewrite <- !app_assoc. }
    destruct D as [[D1 D2]|(T & RS & first & id & bd & len & -> & L & D)].
    + left. rewrite FR, D1. split; [now rewrite <- !app_assoc|assumption].
    + right. split; [assumption|]. split; [assumption|]. exists ((from_be [a; b; d], body) :: first), id, bd, len.
      split; [reflexivity|]. split; [assumption|]. rewrite FR, D. now rewrite <- !app_assoc.
  - cbn [app] in BO. inversion BO as [|? ? B1 BO1]; subst. inversion BO1 as [|? ? B2 BO2]; subst. inversion BO2 as [|? ? B3 BO3]; subst.
    exists [(from_be [a; b; d], body)], []. split; [repeat constructor; auto|]. right.
    split; [reflexivity|]. split; [reflexivity|]. exists [], (from_be [a; b; d]), body, len.
    split; [reflexivity|]. split; [assumption|]. rewrite ID by assumption. reflexivity.
Qed.

(** Decoding a container raises nothing but DecodeError, and only where unpacking does; contained
    messages that cannot be decoded are returned as raw bytes. *)
Theorem C22_decode_total c data allow_truncated allow_excess :
  ids_listed_once c -> is_container c = true -> bytes_ok data -> zlen data <= cn_length c ->
  (forall x, In x (cn_contained c) -> strict_message (ct_msg x) /\
     forall s, In s (m_signals (ct_msg x)) -> s_is_mux s = true -> conv_is_float (s_conv s) = false) ->
  match decode_container c data false false allow_truncated allow_excess with
  | Ok out => exists l, unpack_container c data allow_truncated = Ok l /\
      Forall2 (fun o r => fst r = fst o /\
        match fst o with
        | inl _ => snd r = PBytes (snd o)
        | inr x => match decode (ct_msg x) (snd o) false false allow_truncated allow_excess with
                   | Ok d => snd r = PDict d
                   | Err _ => snd r = PBytes (snd o)
                   end
        end) l out
  | Err e => e = DecodeError /\ unpack_container c data allow_truncated = Err DecodeError
  end.
Proof.
  intros U IC BO HL SM. unfold decode_container. rewrite IC. cbn [negb].
  assert (R := C22_unpack_total c data allow_truncated U IC BO HL).
  destruct (unpack_container c data allow_truncated) as [l|e]; cbn [bind]; [|now destruct R as (-> & _)].
  assert (G : exists out, decode_items l false false allow_truncated allow_excess = Ok out /\
     Forall2 (fun o r => fst r = fst o /\
        match fst o with
        | inl _ => snd r = PBytes (snd o)
        | inr x => match decode (ct_msg x) (snd o) false false allow_truncated allow_excess with
                   | Ok d => snd r = PDict d
                   | Err _ => snd r = PBytes (snd o)
                   end
        end) l out).
  { clear HL IC. assert (STEP : forall a b d body (k : Z + contained) (tl : list Z) l,
      presented c (from_be [a; b; d]) k -> bytes_ok body ->
      (exists out, decode_items l false false allow_truncated allow_excess = Ok out /\
         Forall2 (fun o r => fst r = fst o /\
        match fst o with
        | inl _ => snd r = PBytes (snd o)
        | inr x => match decode (ct_msg x) (snd o) false false allow_truncated allow_excess with
                   | Ok d => snd r = PDict d
                   | Err _ => snd r = PBytes (snd o)
                   end
        end) l out) ->
      exists out, decode_items ((k, body) :: l) false false allow_truncated allow_excess = Ok out /\
         Forall2 (fun o r => fst r = fst o /\
        match fst o with
        | inl _ => snd r = PBytes (snd o)
        | inr x => match decode (ct_msg x) (snd o) false false allow_truncated allow_excess with
                   | Ok d => snd r = PDict d
                   | Err _ => snd r = PBytes (snd o)
                   end
        end) ((k, body) :: l) out).
    { intros a b d body k tl l' P BB (out & E & F). destruct k as [id|x]; cbn [decode_items].
      - rewrite E. cbn [bind]. eexists. split; [reflexivity|]. constructor; [|exact F]. cbn. auto.
      - destruct P as [P _]. destruct (SM x P) as [SMx NF]. destruct (strict_message_ok _ SMx) as [OK BC].
        destruct (decode (ct_msg x) body false false allow_truncated allow_excess) as [dd|e] eqn:ED.
        + cbn [bind]. rewrite E. cbn [bind]. eexists. split; [reflexivity|]. constructor; [|exact F]. cbn [fst snd]. rewrite ED. auto.
        + assert (e = DecodeError) by (eapply decode_raw_err; eauto). subst e. cbn [bind]. rewrite E. cbn [bind].
          eexists. split; [reflexivity|]. constructor; [|exact F]. cbn [fst snd]. rewrite ED. auto. }
    revert BO. induction R as [rest L|a b d body rest k out P R IH|a b d len body k T P L]; intros BO.
    - exists []. split; [reflexivity|constructor].
    - apply Forall_app in BO. destruct BO as [_ BO]. apply Forall_app in BO. destruct BO as [BB BR].
      apply (STEP a b d); auto.
    - apply Forall_app in BO. destruct BO as [_ BO]. apply (STEP a b d); auto. exists []. split; [reflexivity|constructor]. }
  destruct G as (out & -> & F). eauto.
Qed.

(** Examples for C22: a container with two contained messages, one element known, one unknown. *)
Definition ex_contained : contained := mkContained ex_msg (Some 10).
Definition flat_contained : contained := mkContained flat_msg (Some 66051).
Definition ex_container (big : bool) : container := mkContainer 64 big [ex_contained; flat_contained].
Definition ex_frame : list Z := [1; 2; 3; 3; 200; 17; 255] ++ [0; 0; 77; 2; 5; 6] ++ [9; 9].

Lemma ex_ids big : ids_listed_once (ex_container big) /\ is_container (ex_container big) = true.
Proof.
  split; [|reflexivity]. split.
  - repeat constructor; cbn; [|tauto]. intros [H|[]]. assert (E : ct_header flat_contained = ct_header ex_contained) by now rewrite H.
    discriminate E.
  - intros x y z [<-|[<-|[]]] [<-|[<-|[]]] H1 H2; cbn in H1, H2; try reflexivity; congruence.
Qed.
Example C22_hypotheses : ids_listed_once (ex_container true) /\ is_container (ex_container true) = true /\
  bytes_ok ex_frame /\ zlen ex_frame <= 64 /\
  (exists out, unpack_container (ex_container true) ex_frame false = Ok out /\ zlen out = 2) /\
  overlong ([0; 0; 77; 2] ++ [5]) /\
  (forall x, In x (cn_contained (ex_container true)) -> strict_message (ct_msg x) /\
     forall s, In s (m_signals (ct_msg x)) -> s_is_mux s = true -> conv_is_float (s_conv s) = false).
Proof.
  destruct (ex_ids true) as [H1 H2]. split; [exact H1|]. split; [exact H2|].
  split; [repeat constructor; vm_compute; discriminate|]. split; [vm_compute; discriminate|].
  split; [eexists; split; [vm_compute; reflexivity|vm_compute; reflexivity]|].
  split; [apply overlong_here; vm_compute; reflexivity|].
  intros x [<-|[<-|[]]]; cbn [ct_msg].
  - split; [exact ex_strict|]. intros s H. sig_cases H; intros E; (discriminate E || reflexivity).
  - split; [exact flat_strict|]. intros s H. sig_cases H; intros E; (discriminate E || reflexivity).
Qed.

(** ** C21 *)
Lemma unpack_frame c tr : ids_listed_once c ->
  forall its, Forall (fun x => 0 <= fst x < 2 ^ 24 /\ zlen (snd x) < 256) its ->
  forall fuel, (List.length (frame_bytes true its) < fuel)%nat ->
  exists out, unpack_loop fuel c (frame_bytes true its) tr = Ok out /\
    Forall2 (fun x o => presented c (fst x) (fst o) /\ snd o = snd x) its out.
Proof.
  intros U its. induction its as [|[id body] its IH]; intros HF fuel HL; (destruct fuel as [|fuel]; [lia|]).
  - exists []. split; [reflexivity|constructor].
  - inversion HF as [|? ? [B L] HF']; subst. cbn [fst snd] in B, L.
    assert (E : frame_bytes true ((id, body) :: its)
                = id / 65536 :: id / 256 mod 256 :: id mod 256 :: zlen body :: body ++ frame_bytes true its) by reflexivity.
    rewrite E in *. cbn [List.length] in HL. rewrite app_length in HL. cbn [unpack_loop]. rewrite from3 by assumption.
    assert (ZL : zlen (body ++ frame_bytes true its) = zlen body + zlen (frame_bytes true its)) by (unfold zlen; rewrite app_length; lia).
    destruct (Z.ltb_spec (zlen (body ++ frame_bytes true its)) (zlen body)); [unfold zlen in *; lia|]. cbn [bind].
    assert (SL : slice 0 (zlen body) (body ++ frame_bytes true its) = body).
    { unfold slice, zlen. rewrite Z.sub_0_r, Nat2Z.id. cbn [Z.to_nat skipn]. rewrite firstn_app, Nat.sub_diag, firstn_all. apply app_nil_r. }
    assert (SK : skipn (Z.to_nat (zlen body)) (body ++ frame_bytes true its) = frame_bytes true its).
    { unfold zlen. rewrite Nat2Z.id, skipn_app, skipn_all, Nat.sub_diag. reflexivity. }
    rewrite SL, SK. destruct (by_id_total c id U) as [o EO]. rewrite EO. cbn [bind].
    destruct (IH HF' fuel ltac:(lia)) as (out & E1 & F). rewrite E1. cbn [bind].
    eexists. split; [reflexivity|]. constructor; [|assumption]. cbn [fst snd]. split; [now apply by_id_spec|reflexivity].
Qed.

(** The elements of [items] are found again, in order, under their header ids. *)
Theorem C21_round_trip c items scaling padding strict bytes allow_truncated :
  ids_listed_once c -> is_container c = true -> cn_big_header c = true ->
  encode_container c items scaling padding strict = Ok bytes -> zlen bytes <= cn_length c ->
  exists out, unpack_container c bytes allow_truncated = Ok out /\
    Forall2 (fun it o => exists id, requested c scaling padding it id (snd o) /\ presented c id (fst o)) items out.
Proof.
  intros U IC BE H HL. unfold encode_container in H. apply bind_ok in H. destruct H as (_ & _ & H).
  destruct (encode_items_spec _ _ _ _ _ H) as (its & E & F). rewrite BE in E.
  destruct (unpack_frame c allow_truncated U its) with (fuel := S (List.length bytes)) as (out & E1 & F1).
  - clear - F. induction F as [|it x l l' (_ & B & L) F IH]; constructor; auto.
  - rewrite <- E. lia.
  - exists out. split.
    + unfold unpack_container. rewrite IC. cbn [negb]. destruct (Z.ltb_spec (cn_length c) (zlen bytes)); [lia|]. rewrite <- E in E1. exact E1.
    + clear - F F1. revert out F1. induction F as [|it x l l' (R & _) F IH]; intros out F1; inversion F1 as [|? o ? out' [P S] F2]; subst; constructor; auto.
      exists (fst x). rewrite S. auto.
Qed.

(** With raw values: the dictionaries come back as Message.encode and decode guarantee (C04). *)
Theorem C21_values_round_trip c items padding strict bytes allow_truncated allow_excess :
  ids_listed_once c -> is_container c = true -> cn_big_header c = true ->
  encode_container c items false padding strict = Ok bytes -> zlen bytes <= cn_length c -> bytes_ok bytes ->
  (forall x, In x (cn_contained c) -> strict_message (ct_msg x) /\
     forall s, In s (m_signals (ct_msg x)) -> s_is_mux s = true -> conv_is_float (s_conv s) = false) ->
  exists out, decode_container c bytes false false allow_truncated allow_excess = Ok out /\
    Forall2 (fun it o => exists id body, requested c false padding it id body /\ presented c id (fst o) /\
      match fst o with
      | inl _ => snd o = PBytes body
      | inr x => match decode (ct_msg x) body false false allow_truncated allow_excess with
                 | Ok d => snd o = PDict d
                 | Err _ => snd o = PBytes body
                 end
      end) items out.
Proof.
  intros U IC BE H HL BO SM.
  destruct (C21_round_trip c items false padding strict bytes allow_truncated U IC BE H HL) as (l & E & F).
  assert (D := C22_decode_total c bytes allow_truncated allow_excess U IC BO HL SM). rewrite E in D.
  destruct (decode_container c bytes false false allow_truncated allow_excess) as [out|e]; [|destruct D as [_ D]; discriminate].
  destruct D as (l' & E' & D). apply Ok_inj in E'. subst l'. exists out. split; [reflexivity|].
  clear - F D. revert out D. induction F as [|it o items l (id & R & P) F IH]; intros out D; inversion D as [|? r ? out' [D1 D2] D3]; subst; constructor; auto.
  exists id, (snd o). rewrite D1. split; [assumption|]. split; [assumption|].
  destruct (fst o) as [z|x]; [assumption|].
  destruct (decode (ct_msg x) (snd o) false false allow_truncated allow_excess); assumption.
Qed.

Definition ex_items : list (header * payload) :=
  [(HName "Flat", PDict [("X", VNum (NInt (-2))); ("Y", VNum (NInt 9))]); (HInt 77, PBytes [1; 2; 3]);
   (HMsg ex_contained, PDict ex_data); (HInt 66051, PBytes [4; 5; 6])]%string.
Example C21_hypotheses : ids_listed_once (ex_container true) /\ is_container (ex_container true) = true /\
  cn_big_header (ex_container true) = true /\
  exists bytes, encode_container (ex_container true) ex_items false true true = Ok bytes /\ zlen bytes <= 64 /\ bytes_ok bytes.
Proof.
  destruct (ex_ids true) as [H1 H2]. repeat (split; [assumption || reflexivity|]).
  destruct (encode_container (ex_container true) ex_items false true true) as [bytes|e] eqn:E; vm_compute in E; [|discriminate E].
  apply Ok_inj in E. subst bytes. eexists. split; [reflexivity|]. split; [vm_compute; discriminate|].
  repeat constructor; vm_compute; discriminate.
Qed.

(** Encoding does not check the total length: a container can produce frames it refuses to unpack. *)
Theorem C21_length_unchecked_refuted :
  ~ (forall c items bytes, ids_listed_once c -> is_container c = true -> cn_big_header c = true ->
       encode_container c items false false true = Ok bytes -> zlen bytes <= cn_length c).
Proof.
  intros H. destruct (ex_ids true) as [U IC].
  assert (U' : ids_listed_once (mkContainer 3 true [ex_contained; flat_contained])) by exact U.
  specialize (H (mkContainer 3 true [ex_contained; flat_contained]) [(HInt 66051, PBytes [4; 5; 6])] [1; 2; 3; 3; 4; 5; 6]
                U' eq_refl eq_refl eq_refl).
  vm_compute in H. now apply H.
Qed.

(** ** C23 *)
(** The id with its three bytes in opposite order. *)
Definition swapped (id : Z) : Z := id mod 256 * 65536 + id / 256 mod 256 * 256 + id / 65536.

Lemma id_bytes_swapped id : 0 <= id < 2 ^ 24 -> id_bytes false id = id_bytes true (swapped id) /\ 0 <= swapped id < 2 ^ 24.
Proof.
  intros H. change (2 ^ 24) with 16777216 in *. unfold id_bytes, swapped. cbn [rev app].
  set (a := id mod 256). set (b := id / 256 mod 256). set (d := id / 65536).
  assert (0 <= a < 256) by (unfold a; lia). assert (0 <= b < 256) by (unfold b; lia). assert (0 <= d < 256) by (unfold d; lia).
  clearbody a b d. split; [|lia]. f_equal; [lia|]. f_equal; [lia|]. f_equal. lia.
Qed.

(** A container with little endian headers finds every element under the swapped id. *)
Theorem C23_little_endian_ids_swapped c items scaling padding strict bytes allow_truncated :
  ids_listed_once c -> is_container c = true -> cn_big_header c = false ->
  encode_container c items scaling padding strict = Ok bytes -> zlen bytes <= cn_length c ->
  exists out, unpack_container c bytes allow_truncated = Ok out /\
    Forall2 (fun it o => exists id, requested c scaling padding it id (snd o) /\ presented c (swapped id) (fst o)) items out.
Proof.
  intros U IC BE H HL. unfold encode_container in H. apply bind_ok in H. destruct H as (_ & _ & H).
  destruct (encode_items_spec _ _ _ _ _ H) as (its & E & F). rewrite BE in E.
  set (sw := map (fun x => (swapped (fst x), snd x)) its).
  assert (ES : bytes = frame_bytes true sw).
  { rewrite E. unfold frame_bytes, sw. rewrite map_map. f_equal. apply map_ext_in. intros x Hx.
    unfold item_bytes. cbn [fst snd]. f_equal.
    assert (0 <= fst x < 2 ^ 24); [|now apply id_bytes_swapped].
    clear - F Hx. induction F as [|it y l l' (_ & B & L) F IH]; [contradiction|]. destruct Hx as [->|Hx]; auto. }
  destruct (unpack_frame c allow_truncated U sw) with (fuel := S (List.length bytes)) as (out & E1 & F1).
  - unfold sw. clear - F. induction F as [|it x l l' (_ & B & L) F IH]; cbn [map]; constructor; auto.
    cbn [fst snd]. split; [now apply id_bytes_swapped|assumption].
  - rewrite <- ES. lia.
  - exists out. split.
    + unfold unpack_container. rewrite IC. cbn [negb]. destruct (Z.ltb_spec (cn_length c) (zlen bytes)); [lia|]. rewrite <- ES in E1. exact E1.
    + unfold sw in F1. clear - F F1. revert out F1. induction F as [|it x l l' (R & _) F IH]; intros out F1; cbn [map] in F1; inversion F1 as [|? o ? out' [P S] F2]; subst; constructor; auto.
      cbn [fst snd] in *. exists (fst x). rewrite S. auto.
Qed.
Theorem C23_little_endian_round_trip_refuted :
  ~ (forall c items bytes out, ids_listed_once c -> is_container c = true ->
       encode_container c items false false true = Ok bytes -> unpack_container c bytes false = Ok out ->
       Forall2 (fun it o => exists id, requested c false false it id (snd o) /\ presented c id (fst o)) items out).
Proof.
  intros H. destruct (ex_ids false) as [U IC].
  specialize (H (ex_container false) [(HInt 77, PBytes [])] [77; 0; 0; 0] [(inl 5046272, [])] U IC eq_refl eq_refl).
  inversion H as [|? ? ? ? (id & R & P) _]; subst. destruct R as [R _]. destruct P as [P _]. cbn in R, P. lia.
Qed.
Example C23_hypotheses : ids_listed_once (ex_container false) /\ is_container (ex_container false) = true /\
  cn_big_header (ex_container false) = false /\
  exists bytes, encode_container (ex_container false) ex_items false true true = Ok bytes /\ zlen bytes <= 64.
Proof.
  destruct (ex_ids false) as [H1 H2]. repeat (split; [assumption || reflexivity|]).
  destruct (encode_container (ex_container false) ex_items false true true) as [bytes|e] eqn:E; vm_compute in E; [|discriminate E].
  apply Ok_inj in E. subst bytes. eexists. split; [reflexivity|]. vm_compute; discriminate.
Qed.
