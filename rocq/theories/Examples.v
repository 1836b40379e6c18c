(** Examples: concrete messages used to show that the hypotheses of the theorems can be met, and
    as witnesses of the refuted claims. *)
From Coq Require Import Floats.SpecFloat.
From Verif Require Import Base PyNum Conversion Signal Bitstruct Formats Message LayoutSpec CodecSpec.

(** A conversion built by the factory (the default is never taken below). *)
Definition conv_of (scale offset : num) (ch : option choices_t) (fl : bool) : conversion :=
  match factory scale offset ch fl with Ok c => c | Err _ => CNum (CIdent false) end.
Definition plain_conv : conversion := conv_of (NInt 1) (NInt 0) None false.

Definition sig (name : string) (start len : Z) (big signed : bool) (c : conversion) : signal :=
  mkSignal name start len big signed c None None false None None.
Definition muxed (name : string) (start len : Z) (big signed : bool) (c : conversion) (ids : list Z) (mux : string) : signal :=
  mkSignal name start len big signed c None None false (Some ids) (Some mux).

Definition onoff : choices_t := [(0, ChNamed 0 "Off"); (1, ChNamed 1 "On"); (7, ChNamed 7 "Bad")]%string.

(** 8 bytes; a multiplexer with a nested multiplexer, both byte orders, signed, float and value
    table signals; branches share bits. *)
Definition ex_sigs : list signal := [
  mkSignal "Mux" 0 4 false false plain_conv None None true None None;
  sig "Speed" 15 12 true true (conv_of (NInt 2) (NInt 5) None false);
  mkSignal "State" 4 3 false false (conv_of (NInt 1) (NInt 0) (Some onoff) false)
           (Some (NInt 0)) (Some (NInt 5)) false None None;
  mkSignal "Sub" 24 3 false false plain_conv None None true (Some [0; 1]) (Some "Mux");
  muxed "B" 32 8 false true plain_conv [0; 1] "Mux";
  muxed "C" 35 9 true false plain_conv [2] "Mux";
  muxed "D" 40 5 false false plain_conv [3; 4] "Sub";
  muxed "E" 42 2 true true plain_conv [5] "Sub";
  sig "F" 48 16 false false (conv_of (NInt 1) (NInt 0) None true)
]%string.

Definition ex_msg : message :=
  match mk_message 291 false "Ex" 8 255 ex_sigs true SortDefault with
  | Ok m => m
  | Err _ => mkMessage 0 false "" 0 0 [] false (Codec [] (mkFormats [] [] 0) []) (STree [])
  end.

Lemma built_conv_of scale offset ch fl :
  (exists c, factory scale offset ch fl = Ok c) -> built_conv (conv_of scale offset ch fl).
Proof. intros [c H]. exists scale, offset, ch, fl. unfold conv_of. now rewrite H. Qed.

Lemma ex_built s : In s ex_sigs -> built_conv (s_conv s).
Proof.
  intros H. repeat (destruct H as [<-|H]; [cbn [s_conv sig muxed]; apply built_conv_of; eexists; vm_compute; reflexivity|]).
  contradiction.
Qed.

Lemma names_nodup l : (fix go (l : list string) := match l with [] => true | x :: r => negb (existsb (String.eqb x) r) && go r end) l = true -> NoDup l.
Proof.
  induction l as [|x r IH]; [constructor|]. intros H. apply andb_true_iff in H. destruct H as [H1 H2].
  constructor; [|now apply IH]. intros HI. apply negb_true_iff in H1.
  assert (existsb (String.eqb x) r = true); [|congruence]. apply existsb_exists. exists x. split; [assumption|apply String.eqb_refl].
Qed.

Example ex_strict : strict_message ex_msg.
Proof.
  exists 291, false, "Ex"%string, 8, 255, ex_sigs. split; [vm_compute; reflexivity|].
  split; [lia|]. split; [apply names_nodup; vm_compute; reflexivity|]. split.
  - intros s H. repeat (destruct H as [<-|H]; [cbn; lia|]). contradiction.
  - exact ex_built.
Qed.

(** 1.5 as a float *)
Definition f1_5 : float := S754_finite false 6755399441055744 (-52).

Definition ex_data : list (string * value) := [
  ("Mux", VNum (NInt 1)); ("Speed", VNum (NInt (-77))); ("State", VStr "On"); ("Sub", VNum (NInt 5));
  ("B", VNum (NInt (-3))); ("E", VNum (NInt (-2))); ("F", VNum (NFlt f1_5))]%string.

Definition ex_bytes : list Z :=
  match encode ex_msg ex_data false true true with Ok b => b | Err _ => [] end.

Example ex_encode : encode ex_msg ex_data false true true = Ok ex_bytes /\ zlen ex_bytes = 8.
Proof. split; vm_compute; reflexivity. Qed.

(** Evaluate only with vm_compute. *)
Global Opaque ex_msg ex_bytes.

(** Case analysis over the signals of a concrete message. *)
Ltac sig_cases H := vm_compute in H; repeat (destruct H as [<-|H]); [..|contradiction].

(** A payload with an unknown multiplexer value (9). *)
Definition ex_bad_payload : list Z := [9; 0; 0; 0; 0; 0; 0; 0].
(** Values with an unknown multiplexer value. *)
Definition ex_bad_data : list (string * value) := [
  ("Mux", VNum (NInt 9)); ("Speed", VNum (NInt 0)); ("State", VNum (NInt 0)); ("F", VNum (NFlt f1_5))]%string.

(** A message without multiplexers. *)
Definition flat_sigs : list signal :=
  [sig "X" 7 16 true true plain_conv; sig "Y" 18 5 false false plain_conv]%string.
Definition flat_msg : message :=
  match mk_message 5 true "Flat" 3 0 flat_sigs true SortDefault with
  | Ok m => m
  | Err _ => mkMessage 0 false "" 0 0 [] false (Codec [] (mkFormats [] [] 0) []) (STree [])
  end.
Example flat_strict : strict_message flat_msg.
Proof.
  exists 5, true, "Flat"%string, 3, 0, flat_sigs. split; [vm_compute; reflexivity|].
  split; [lia|]. split; [apply names_nodup; vm_compute; reflexivity|]. split.
  - intros s H. repeat (destruct H as [<-|H]; [cbn; lia|]). contradiction.
  - intros s H. repeat (destruct H as [<-|H]; [cbn [s_conv sig muxed]; apply built_conv_of; eexists; vm_compute; reflexivity|]).
    contradiction.
Qed.
Global Opaque flat_msg.
