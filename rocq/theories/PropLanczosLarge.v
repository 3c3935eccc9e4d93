(** C109: Lanczos resizing of very long lines. *)
From Verif Require Import Base F32Model ResizeModel ResizeSpec LanczosSpec LanczosTop LanczosLargeSpec LanczosLarge.
Open Scope Z_scope.

(** C109 fails of the code for lines of more than 2^23 pixels: a white line of 8388610
    pixels resized to its own size ends in a black pixel.  Its position is rounded to the
    place after the last pixel; all weights vanish there and are not normalised. *)
Theorem lanczos_flat_refuted : forall sin, good_sine sin -> small_at_pi sin -> forall data, Forall (fun b => b = 255) data -> zlen data = 8388610 ->
  resizable long_line data /\ exists out, resize sin data long_line = Ok out /\ zlen out = 8388610 /\ znth out 8388609 = 0.
Proof. exact long_line_l. Qed.
Print Assumptions lanczos_flat_refuted.

(** the hypotheses are met *)
Example small_sine_case : good_sine near_sine /\ small_at_pi near_sine.
Proof. exact near_sine_ok. Qed.
Example white_line_case : Forall (fun b => b = 255) (repeat 255 (Z.to_nat 8388610)) /\ zlen (repeat 255 (Z.to_nat 8388610)) = 8388610.
Proof. split; [apply Forall_forall; intros x Hx; apply repeat_spec in Hx; exact Hx|unfold zlen; rewrite repeat_length, Z2Nat.id by discriminate; reflexivity]. Qed.
