(** ArxmlReach: what the element tree has at a place, in terms of the specification of C69, and that the lookups of the
    loader find it. *)
From Coq Require Import Ascii Floats.SpecFloat.
From Verif Require Import Base PyNum DictLemmas CSource CNames Regex DbcToken DbcTables Logreader DecodeCmd Xml Arxml Prop_Arxml.
Local Open Scope string_scope.
Local Open Scope Z_scope.
Local Open Scope list_scope.

Section Spec.
  Context (from_text : chars -> option spec_float) (from_hex : chars -> result spec_float) (ns : chars) (root : xml).
  (** One gets from [n] to [m] by going to a child of the first name, or along a reference of that name, and so on *)
  Definition reach (n : node) (names : list string) (m : node) : Prop := chain ns root n (map (fun s => (true, false, s)) names) m.
  Definition only (n : node) (names : list string) (m : node) : Prop := forall k, reach n names k <-> k = m.
  Definition nothing (n : node) (names : list string) : Prop := forall k, ~ reach n names k.
  Definition text_at (n : node) (names : list string) (t : chars) : Prop := exists m, only n names m /\ x_text (snd m) = t.
  Definition int_at (n : node) (names : list string) (z : Z) : Prop := exists t, text_at n names t /\ integer from_text from_hex t = Ok z.
  Definition opt_text_at (n : node) (names : list string) (o : option chars) : Prop :=
    match o with Some t => text_at n names t | None => nothing n names end.
  Definition opt_int_at (n : node) (names : list string) (o : option Z) : Prop :=
    match o with Some z => int_at n names z | None => nothing n names end.
End Spec.

Definition bare (a : string) : string := string_of_list_ascii (atom_name a).
Definition parsed (a : string) : entry := (marked "*" a, marked "&" a, bare a).
Definition good_atom (a : string) : bool :=
  forallb (fun c => negb (Ascii.eqb c "&") && negb (Ascii.eqb c "*")) (firstn 2 (txt (bare a))) && String.eqb (write_entry (parsed a)) a.

Section Tools.
  Context (ns : chars) (root : xml) (rf : refs) (OK : reference_dicts ns root = Ok rf).
  Notation reach := (reach ns root).
  Notation only := (only ns root).
  Notation nothing := (nothing ns root).
  Notation valid := (valid root).

  Lemma chain_names : forall l l' n m, map e_name l = map e_name l' -> (chain ns root n l m <-> chain ns root n l' m).
  Proof using.
    induction l as [|a l IH]; intros [|a' l'] n m E; try discriminate; [reflexivity|]. injection E as E1 E2. cbn [chain]. rewrite E1.
    split; intros (k & H & C); exists k; (split; [exact H|]); now apply (IH l' k m E2).
  Qed.
  Lemma good_parsed a : good_atom a = true -> plain (parsed a) /\ write_entry (parsed a) = a.
  Proof using.
    unfold good_atom. rewrite andb_true_iff, forallb_forall. intros (P & E). apply String.eqb_eq in E. split; [|exact E].
    intros c I. specialize (P c I). apply andb_true_iff in P. destruct P as (P1 & P2). rewrite negb_true_iff in P1, P2. now rewrite Ascii.eqb_neq in P1, P2.
  Qed.
  Lemma good_all l : forallb good_atom l = true -> Forall plain (map parsed l) /\ map write_entry (map parsed l) = l.
  Proof using.
    induction l as [|a l IH]; [split; [constructor|reflexivity]|]. cbn [forallb map]. rewrite andb_true_iff. intros (G & H). destruct (good_parsed a G) as (P & E), (IH H) as (F & M).
    split; [now constructor|now rewrite E, M].
  Qed.
  Lemma reach_parsed l n m : chain ns root n (map parsed l) m <-> reach n (map bare l) m.
  Proof using. apply chain_names. rewrite !map_map. reflexivity. Qed.
  Lemma at_children l n out : valid n -> children ns rf n l = Ok out -> forallb good_atom l = true -> forall m, In m out <-> reach n (map bare l) m.
  Proof using OK.
    intros W H G m. destruct (good_all l G) as (P & E). rewrite <- E in H. rewrite (C69_locates ns root rf OK n (map parsed l) out W P H m). apply reach_parsed.
  Qed.
  Lemma chain_valid : forall l n m, valid n -> chain ns root n l m -> valid m.
  Proof using. induction l as [|a l IH]; intros n m W; cbn [chain]; [now intros ->|]. intros (k & H & C). exact (IH k m (hop_valid ns root n (e_name a) k W H) C). Qed.
  Lemma reach_valid l n m : valid n -> reach n l m -> valid m.
  Proof using. apply chain_valid. Qed.
  Lemma children_valid l n out : valid n -> children ns rf n l = Ok out -> forallb good_atom l = true -> Forall valid out.
  Proof using OK. intros W H G. apply Forall_forall. intros m I. apply (at_children l n out W H G) in I. exact (reach_valid _ n m W I). Qed.
  Lemma at_child l n o : valid n -> child ns rf n l = Ok o -> forallb good_atom l = true ->
    match o with Some m => valid m /\ only n (map bare l) m | None => nothing n (map bare l) end.
  Proof using OK.
    intros W H G. unfold child in H. apply bind_ok in H. destruct H as (out & C & H). pose proof (at_children l n out W C G) as A.
    destruct out as [|m [|? ?]]; [injection H as <-|injection H as <-|discriminate].
    - intros k K. now apply A in K.
    - assert (O : only n (map bare l) m) by (intros k; rewrite <- A; split; [now intros [->|[]]|intros ->; now left]). split; [|exact O].
      apply (reach_valid (map bare l) n m W). now apply O.
  Qed.
  Lemma only_fun n names m m' : only n names m -> only n names m' -> m = m'.
  Proof using. intros O O'. now apply O', O. Qed.
  Lemma only_nothing n names m : only n names m -> nothing n names -> False.
  Proof using. intros O N. apply (N m). now apply O. Qed.
End Tools.
