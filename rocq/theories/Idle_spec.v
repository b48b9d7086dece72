(** Rules that an address leaves idle. *)
From Coq Require Import List NArith.
From Verif Require Import Base_model Class_model Rule_model Search_model Wrapper_model Class_spec Address_spec.
Import ListNotations.

(** The rule has an input class that no row of as_parse shows. *)
Definition idle (rows : list prow) (r : rule) : Prop := exists c, In c (r_in r) /\ forall row, In row rows -> ~ in_list (pr_class row) c.
(** The second list is the first without some idle rules. *)
Inductive without (rows : list prow) : list rule -> list rule -> Prop :=
| wo_nil : without rows [] []
| wo_keep : forall r l l', without rows l l' -> without rows (r :: l) (r :: l')
| wo_drop : forall r l l', idle rows r -> without rows l l' -> without rows (r :: l) l'.
(** The second grammar is the first without some idle rules in its sections. *)
Definition pruned (rows : list prow) (g g' : grammar) : Prop :=
  g_metas g' = g_metas g /\ g_index g' = g_index g /\ Forall2 (fun s s' => rs_name s' = rs_name s /\ without rows (rs_rules s) (rs_rules s')) (g_rules g) (g_rules g').
(** The name of a section of rules that are all idle. *)
Definition idle_section (rows : list prow) (g : grammar) (n : text) : Prop :=
  In n (map rs_name (g_rules g)) /\ forall s r, In s (g_rules g) -> rs_name s = n -> In r (rs_rules s) -> idle rows r.
