(** What a configured table of upgrades means, stated on the configured list alone. *)
From Coq Require Import String ZArith List Bool Lia Sorting.
From Verif Require Import Lib UpgradeModel.
Import ListNotations.
Open Scope Z_scope.

(** The entry that counts for a version is the last one given for it. *)
Definition configured (pts : list point) (v : Z) (p : point) : Prop :=
  exists before after, pts = before ++ p :: after /\ p_version p = v /\ ~ In v (map p_version after).
(** A version is in force at a height when it is configured at or below it. *)
Definition in_force (pts : list point) (v h : Z) : Prop :=
  exists p, configured pts v p /\ p_height p <= h.
(** A usable table: the versions are 1 up to some number, without gaps, and a later version is
    not configured below an earlier one. *)
Definition usable (pts : list point) : Prop :=
  (exists n, 0 <= n /\ forall v, (exists p, configured pts v p) <-> 1 <= v <= n) /\
  (forall v w p q, configured pts v p -> configured pts w q -> v <= w -> p_height p <= p_height q).
(** Heights and versions are Go's unsigned integers. *)
Definition typed (pts : list point) : Prop :=
  Forall (fun p => 0 <= p_height p <= max_u64 /\ 0 <= p_version p < 4294967296) pts.
(** The point shown to users: an unnamed one is named after its number. *)
Definition shown (dec : Z -> list Z) (p q : point) : Prop :=
  p_height q = p_height p /\ p_version q = p_version p /\
  (p_name p <> [] -> p_name q = p_name p) /\ (p_name p = [] -> p_name q = dec (p_version p)).

(** Two tables are indistinguishable when every question gets the same answer. *)
Definition same_answers (b c : box) : Prop :=
  (forall v h, is_active b v h = is_active c v h) /\ (forall h, current_point b h = current_point c h) /\
  (forall h, active_points b h = active_points c h) /\ (forall h, is_point b h = is_point c h) /\
  latest_point b = latest_point c /\ (forall v, get_point b v = get_point c v) /\ b_sorted b = b_sorted c.

(** [chosen rules d force r]: [r] is the rule of the greatest version in force among those
    that come with a rule, or the initial rule [d] when none of them is. *)
Definition chosen {R} (rules : list (Z * R)) (d : R) (force : Z -> Prop) (r : R) : Prop :=
  (exists v, In (v, r) rules /\ force v /\ forall w s, In (w, s) rules -> force w -> w <= v) \/
  (r = d /\ forall w s, In (w, s) rules -> ~ force w).
(** Which versions change the quota table and the set of built-in methods. *)
Definition quota_rules : list (Z * quota_table) :=
  [(2, QVite); (4, QDexAgent); (6, QEarth); (8, QDexRobot); (9, QDexStableMarket);
   (10, QVersion10); (11, QVersion11); (14, QVersionX)].
Definition contract_rules : list (Z * contract_set) :=
  [(2, CDex); (4, CDexAgent); (5, CLeaf); (6, CEarth); (8, CDexRobot);
   (9, CDexStableMarket); (11, CDexEnrichOrder); (14, CDexCrossTransfer)].
(** The methods each version brings; version 0 stands for those present from the start. *)
Definition brought : list (Z * list entry) :=
  [(0, m_Simple); (2, add_Dex); (4, add_DexAgent); (5, add_Leaf); (6, add_Earth); (8, add_DexRobot);
   (9, add_DexStableMarket); (11, add_DexEnrichOrder); (14, add_DexCrossTransfer)].
