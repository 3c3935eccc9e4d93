(** Gray pictures stored as RGB. *)
From Verif Require Import Base PngPaletteModel JpegEncModel JpegImgSpec.
Open Scope Z_scope.

(** every sample three times *)
Definition as_rgb (g : list Z) : list Z := flat_map (fun v => [v; v; v]) g.
(** the options with another colour type *)
Definition with_ct (o : jopts) (ct : color_type) : jopts := mkjo (jo_w o) (jo_h o) ct (jo_quality o) (jo_sub o) (jo_restart o) (jo_opt o) (jo_prog o) (jo_trellis o).
(** one restart interval at most (see C36) *)
Definition one_interval (o : jopts) : Prop := match jo_restart o with Some i => mcus_across o * mcus_down o <= i | None => True end.
