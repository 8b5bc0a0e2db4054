(** Parameters of a model that cannot be seen from outside: in exact arithmetic some changes
    of the stored numbers change no result. *)
From Coq Require Import Reals.
From Verif Require Import Base Ggml_model Encoder_model Encoder_spec Real_spec.
Local Open Scope R_scope.

(** [r'] is [r] with one number added to all entries. *)
Definition shifted (r r' : list R) : Prop := exists c, r' = map (fun x => x + c) r.

(** Two encoder layers that differ in the key bias only. *)
Definition other_key_bias (y y' : s_block R) : Prop :=
  exists b, y' = mksb (sq_w y) (sq_b y) (sk_w y) b (sv_w y) (sv_b y) (sff_w y) (sff_b y)
    (sln_ff_w y) (sln_ff_b y) (si_w y) (si_b y) (so_w y) (so_b y) (sln_out_w y) (sln_out_b y).

(** Two models that differ in the key biases only. *)
Definition key_biases_differ (s s' : s_model R) : Prop :=
  exists ys, Forall2 other_key_bias (sm_blocks s) ys /\
    s' = mksm (sm_words s) (sm_positions s) (sm_segments s) (sm_lw s) (sm_lb s) ys (sm_pw s) (sm_pb s).

(** Two encoder layers that differ by a constant in the biases before the layer norms. *)
Definition other_constants (y y' : s_block R) : Prop :=
  exists f o, shifted (sff_b y) f /\ shifted (so_b y) o /\
    y' = mksb (sq_w y) (sq_b y) (sk_w y) (sk_b y) (sv_w y) (sv_b y) (sff_w y) f
      (sln_ff_w y) (sln_ff_b y) (si_w y) (si_b y) (so_w y) o (sln_out_w y) (sln_out_b y).

(** Two models that differ by constants, one per row, in what goes into the layer norms. *)
Definition constants_differ (s s' : s_model R) : Prop :=
  exists words positions segments ys,
    Forall2 shifted (sm_words s) words /\ Forall2 shifted (sm_positions s) positions /\
    Forall2 shifted (sm_segments s) segments /\ Forall2 other_constants (sm_blocks s) ys /\
    s' = mksm words positions segments (sm_lw s) (sm_lb s) ys (sm_pw s) (sm_pb s).

(** Two heads that differ by a constant in the decoder bias. *)
Definition decoder_shifted (sh sh' : s_lm_head R) : Prop :=
  exists b, shifted (sl_cb sh) b /\
    sh' = mksl (sl_dw sh) (sl_db sh) (sl_lw sh) (sl_lb sh) (sl_cw sh) b.

(** The scores of one hidden state before they are made probabilities: dense, activation,
    layer norm, decoder. *)
Definition scores (P : prim R) (e : N) (act : R -> R) (sh : s_lm_head R) (x : list R) : list R :=
  concat (s_dense P (sl_cw sh) (sl_cb sh)
    (s_layer_norm P e (sl_lw sh) (sl_lb sh) (map (map act) (s_dense P (sl_dw sh) (sl_db sh) [x])))).
