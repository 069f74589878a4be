(** Vocabulary for curtains. *)
From Verif Require Export Curt_Model Disp_Spec.
Local Open Scope string_scope.
Local Open Scope list_scope.

(** The subcolumn asked for: by label if there are labels, else by Python index. *)
Definition asked (x : xds) (z : Z) (s : nat) : Prop :=
  s < sz x "subcolumn" /\
  match assoc (coords x) "subcolumn" with
  | Some v => vdims v = ["subcolumn"] /\ vat v [s] = XF (IZR z) /\ forall i, i < s -> vat v [i] <> XF (IZR z)
  | None => Z.of_nat s = z \/ (z < 0 /\ Z.of_nat s = Z.of_nat (sz x "subcolumn") + z)%Z
  end.
(** The field over time and level: of that subcolumn, or the field itself if it has no subcolumns. *)
Definition curtain_of (d : disp) (name : string) (z : Z) (f : nat -> nat -> xr) : Prop :=
  let td := time_dim (d_model d) in let hd := height_dim (d_model d) in
  exists v, assoc (all_vars (d_ds d)) name = Some v /\ NoDup ["subcolumn"; td; hd] /\
    ((vdims v = [td; hd] /\ forall t k, vat v [t; k] = f t k) \/
     (vdims v = ["subcolumn"; td; hd] /\ exists s, asked (d_ds d) z s /\ forall t k, vat v [s; t; k] = f t k)).
(** Axes of a display: increasing times, levels. *)
Record axes_of (d : disp) (c : nat -> R) (times levels : nat) : Prop := {
  ax_own : d_ds d = mds (d_model d);
  ax_clock : clock (d_ds d) (time_dim (d_model d)) c;
  ax_times : sz (d_ds d) (time_dim (d_model d)) = times;
  ax_levels : sz (d_ds d) (height_dim (d_model d)) = levels;
  ax_height : In (height_dim (d_model d)) (all_dims (d_ds d)) /\
    forall v, assoc (all_vars (d_ds d)) (height_dim (d_model d)) = Some v -> vdims v = [height_dim (d_model d)]
}.
(** Where the levels are drawn: their label, or their height averaged over the times shown. *)
Definition placed (d : disp) (pressure : bool) (zname : string) (times levels : nat) (y : nat -> R) : Prop :=
  let td := time_dim (d_model d) in let hd := height_dim (d_model d) in
  if pressure then exists v, assoc (all_vars (d_ds d)) hd = Some v /\ forall k, k < levels -> vat v [k] = XF (y k)
  else exists v, assoc (all_vars (d_ds d)) zname = Some v /\
    ((vdims v = [hd] /\ forall k, k < levels -> vat v [k] = XF (y k)) \/
     (vdims v = [td; hd] /\ 0 < times /\ exists h, (forall t k, t < times -> k < levels -> vat v [t; k] = XF (h t k)) /\
        forall k, y k = average (map (fun t => h t k) (seq 0 times)))).
Definition coloured_as (o : opts) (p : panel) : Prop := p_log p = o_log o /\ p_lo p = o_lo o /\ p_hi p = o_hi o.
(** Cell (level, column) of the panel shows the value of that column and level. *)
Definition shows (p : panel) (cols levels : nat) (c : nat -> R) (y : nat -> R) (f : nat -> nat -> xr) : Prop :=
  p_cols p = cols /\ p_rows p = levels /\ p_edges p = false /\
  (forall j, j < cols -> p_x p j = XF (c j)) /\ (forall k, k < levels -> p_y p k = XF (y k)) /\
  forall j k, j < cols -> k < levels -> p_val p k j = f j k.
(** Masks over columns and levels; positive entries (or NaN) hide. *)
Definition mask_of (cols levels : nat) (K : nat -> nat -> xr) : arr :=
  {| ash := [cols; levels]; aat := fun ix => K (nth 0 ix 0) (nth 1 ix 0) |}.
Definition hides (a : xr) : bool := match a with XF r => if Rle_dec r 0 then false else true | XM => false | _ => true end.
Definition with_mask (o : opts) (k : option arr) (h : hatching) : opts :=
  {| o_mask := k; o_hatch := h; o_log := o_log o; o_lo := o_lo o; o_hi := o_hi o; o_titled := o_titled o; o_dated := o_dated o |}.

(** The colour of a value: its place in the colour table. *)
Definition colour (b : colourbar) (r : R) : Z := Int_part ((r - b_lo b) / (b_hi b - b_lo b) * INR (b_colours b)).

(** Where the levels of one time are drawn: their label, or their height at that time. *)
Definition placed_at (d : disp) (pressure : bool) (zname : string) (i levels : nat) (y : nat -> R) : Prop :=
  let td := time_dim (d_model d) in let hd := height_dim (d_model d) in
  if pressure then exists v, assoc (all_vars (d_ds d)) hd = Some v /\ forall k, k < levels -> vat v [k] = XF (y k)
  else exists v, assoc (all_vars (d_ds d)) zname = Some v /\
    ((vdims v = [hd] /\ forall k, k < levels -> vat v [k] = XF (y k)) \/
     (vdims v = [td; hd] /\ forall k, k < levels -> vat v [i; k] = XF (y k))).
Definition subcolumn_field (d : disp) (name : string) (f : nat -> nat -> nat -> xr) : Prop :=
  let td := time_dim (d_model d) in let hd := height_dim (d_model d) in
  exists v, assoc (all_vars (d_ds d)) name = Some v /\ NoDup ["subcolumn"; td; hd] /\
    vdims v = ["subcolumn"; td; hd] /\ forall s t k, vat v [s; t; k] = f s t k.

(** Values drawn blank by the displays of regridded fields. *)
Definition not_positive (a : xr) : bool := match a with XF r => if Rle_dec r 0 then true else false | XM => true | _ => false end.
Definition is_zero (a : xr) : bool := match a with XF r => if Req_EM_T r 0 then true else false | _ => false end.
(** A Python index into [n] entries. *)
Definition indexes (n : nat) (z : Z) (i : nat) : Prop := i < n /\ (Z.of_nat i = z \/ (z < 0 /\ Z.of_nat i = Z.of_nat n + z)%Z).
(** Arrays of three and four axes holding given values. *)
Definition array3 (a b n : nat) (g : nat -> nat -> nat -> xr) : arr :=
  {| ash := [a; b; n]; aat := fun ix => g (nth 0 ix 0) (nth 1 ix 0) (nth 2 ix 0) |}.
Definition array4 (s a b n : nat) (g : nat -> nat -> nat -> nat -> xr) : arr :=
  {| ash := [s; a; b; n]; aat := fun ix => g (nth 0 ix 0) (nth 1 ix 0) (nth 2 ix 0) (nth 3 ix 0) |}.
(** An increasing time axis. *)
Definition timed (d : disp) (c : nat -> R) (times : nat) : Prop :=
  clock (d_ds d) (time_dim (d_model d)) c /\ sz (d_ds d) (time_dim (d_model d)) = times /\ mds (d_model d) = d_ds d.
(** The title is given, or the times are dates and there is one. *)
Definition titled_for (times : nat) (o : opts) : Prop := o_titled o = true \/ (o_dated o = true /\ 0 < times).
(** Logarithmic colours come with both limits. *)
Definition limits (o : opts) : Prop := o_log o = true -> o_lo o <> None /\ o_hi o <> None.
(** Hatching asked for: yes, or a pattern that is not empty. *)
Definition hatching_asked (h : hatching) : Prop := h = HBool true \/ exists s, s <> ""%string /\ h = HStr s.
