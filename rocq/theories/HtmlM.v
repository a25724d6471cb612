(** Model of the cells of the web page: web/src/html.rs:90-161. *)
From Coq Require Import List String Ascii NArith ZArith Bool Floats.SpecFloat.
From Verif Require Import Base ScopeM TermM F64 CompareM RowsM FmtM CliM.
Import ListNotations.
Local Open Scope string_scope.

(** web/src/html.rs:96-98 *)
Definition quote : string := String """" "".
Definition code_link (repo_name org name file rev : string) : string :=
  "<a href=" ++ quote ++ "https://github.com/" ++ org ++ "/" ++ repo_name ++ "/tree/" ++ rev ++ "/" ++ file ++ "#:~:text=fn " ++ name
    ++ quote ++ " target=" ++ quote ++ "_blank" ++ quote ++ "><sup><small>CODE</small></sup></a>".

(** [format!("{:.0?}", p)] for a zero or NaN. *)
Definition fmt_zero (p : f64) : string :=
  match p with S754_nan => "NaN" | S754_zero true => "-0" | _ => "0" end.
(** web/src/html.rs:100-116 ([{:.2?}] prints what [{:.2}] prints) *)
Definition html_color_percent (p : f64) (change : rel_change) : string :=
  match change with
  | Changed =>
      if f64_lt p f64_zero then "<p style='color:green'>-" ++ fmt_2 (f64_abs p) ++ "%</p>"
      else if f64_gt p f64_zero then "<p style='color:red'>+" ++ fmt_2 (f64_abs p) ++ "%</p>"
      else fmt_zero p
  | Unchanged => "<p style='color:gray'>Unchanged</p>"
  | Added => "<p style='color:orange'>Added</p>"
  | Removed => "<p style='color:orange'>Removed</p>"
  end.

(** [v as i128] *)
Definition as_i128 (v : N) : Z := if (Z.of_N v <=? i128_max)%Z then Z.of_N v else (Z.of_N v - 2 ^ 128)%Z.
(** [a - b] on [i128]. *)
Definition i128_sub (m : mode) (a b : Z) : outcome Z :=
  let d := (a - b)%Z in
  if (i128_min <=? d)%Z && (d <=? i128_max)%Z then Ok d
  else match m with
       | Checked => Panic "attempt to subtract with overflow"
       | Wrapping => Ok (if (d <? 0)%Z then d + 2 ^ 128 else d - 2 ^ 128)%Z
       end.
(** [change.new_v.unwrap() as i128 - change.old_v.unwrap() as i128] *)
Definition abs_diff (m : mode) (change : term_change) : outcome Z :=
  match tc_new_v change, tc_old_v change with
  | Some n, Some o => i128_sub m (as_i128 n) (as_i128 o)
  | _, _ => Panic "called `Option::unwrap()` on a `None` value"
  end.
(** web/src/html.rs:118-135; the [i128] of the last branch is 0. *)
Definition html_color_abs (m : mode) (change : term_change) (dim : dimension) : outcome string :=
  match tc_change change with
  | Changed =>
      let* diff := abs_diff m change in
      Ok (if (diff <? 0)%Z then "<p style='color:green'>-" ++ fmt_value dim (Z.abs_N diff) ++ "</p>"
          else if (0 <? diff)%Z then "<p style='color:red'>+" ++ fmt_value dim (Z.abs_N diff) ++ "</p>"
          else "0")
  | Unchanged => Ok "<p style='color:gray'>Unchanged</p>"
  | Added => Ok "<p style='color:orange'>Added</p>"
  | Removed => Ok "<p style='color:orange'>Removed</p>"
  end.

Definition u32_max : Z := (2 ^ 32 - 1)%Z.
(** web/src/html.rs:137-152 *)
Definition order_percent (change : term_change) : Z :=
  match tc_change change with
  | Changed => Z.min (f64_to_i128 (f64_mul (tc_percent change) (f64_of_N 1000))) u32_max
  | Unchanged => 0
  | Added => i128_max
  | Removed => i128_min
  end.
(** web/src/html.rs:154-161 *)
Definition order_abs (m : mode) (change : term_change) : outcome Z :=
  match tc_change change with
  | Changed => abs_diff m change
  | Unchanged => Ok 0%Z
  | Added => Ok i128_max
  | Removed => Ok i128_min
  end.
