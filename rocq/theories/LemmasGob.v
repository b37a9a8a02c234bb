(** An encoding that meets what is assumed of encoding/gob. *)

From Verif Require Import ModelStore SpecStore LemmasBase.

Definition dec_of (A : Type) := bytes -> option (A * bytes).
Definition codec_ok {A} (e : A -> bytes) (d : dec_of A) : Prop := forall a s, d (e a ++ s) = Some (a, s).

Fixpoint enc_pos (p : positive) : bytes :=
  match p with
  | xH => [zb 2]
  | xO q => zb 0 :: enc_pos q
  | xI q => zb 1 :: enc_pos q
  end.
Fixpoint dec_pos (s : bytes) : option (positive * bytes) :=
  match s with
  | [] => None
  | b :: s' =>
      if bz b =? 2 then Some (xH, s')
      else match dec_pos s' with
           | Some (p, r) => Some (if bz b =? 0 then xO p else xI p, r)
           | None => None
           end
  end.
Lemma pos_ok : codec_ok enc_pos dec_pos.
Proof. intros p. induction p; intros s; simpl; [now rewrite IHp|now rewrite IHp|reflexivity]. Qed.

Definition enc_z (z : Z) : bytes :=
  match z with Z0 => [zb 0] | Zpos p => zb 1 :: enc_pos p | Zneg p => zb 2 :: enc_pos p end.
Definition dec_z (s : bytes) : option (Z * bytes) :=
  match s with
  | [] => None
  | b :: s' =>
      if bz b =? 0 then Some (0, s')
      else match dec_pos s' with
           | Some (p, r) => Some (if bz b =? 1 then Zpos p else Zneg p, r)
           | None => None
           end
  end.
Lemma z_ok : codec_ok enc_z dec_z.
Proof. intros [|p|p] s; simpl; [reflexivity| |]; now rewrite pos_ok. Qed.

Definition enc_byte (b : byte) : bytes := [b].
Definition dec_byte (s : bytes) : option (byte * bytes) :=
  match s with [] => None | b :: s' => Some (b, s') end.
Lemma byte_ok : codec_ok enc_byte dec_byte.
Proof. intros b s. reflexivity. Qed.

Fixpoint enc_list {A} (e : A -> bytes) (l : list A) : bytes :=
  match l with [] => [zb 0] | a :: l' => zb 1 :: e a ++ enc_list e l' end.
Fixpoint dec_list {A} (d : dec_of A) (fuel : nat) (s : bytes) : option (list A * bytes) :=
  match fuel with
  | O => None
  | S fuel' =>
      match s with
      | [] => None
      | b :: s' =>
          if bz b =? 0 then Some ([], s')
          else match d s' with
               | Some (a, s2) =>
                   match dec_list d fuel' s2 with
                   | Some (l, s3) => Some (a :: l, s3)
                   | None => None
                   end
               | None => None
               end
      end
  end.
Lemma list_ok {A} (e : A -> bytes) d : codec_ok e d ->
  forall l fuel s, (length l < fuel)%nat -> dec_list d fuel (enc_list e l ++ s) = Some (l, s).
Proof.
  intros H. induction l as [|a l IH]; intros [|fuel] s Hf; simpl in *; try lia; [reflexivity|].
  rewrite <- app_assoc, H, IH by lia. reflexivity.
Qed.
Lemma enc_list_length {A} (e : A -> bytes) l : (length l < length (enc_list e l))%nat.
Proof. induction l as [|a l IH]; simpl; [lia|]. rewrite app_length. lia. Qed.

Definition enc_ct (c : coltype) : bytes :=
  enc_z (match ct_type c with
         | UnknownType => 0 | BoolType => 1 | StringType => 2 | BytesType => 3 | Float64Type => 4 | Int64Type => 5
         end) ++
  enc_z (ct_size c) ++ enc_z (if ct_fixed c then 1 else 0) ++ enc_z (if ct_notnull c then 1 else 0).
Definition dec_ct (s : bytes) : option (coltype * bytes) :=
  match dec_z s with
  | None => None
  | Some (t, s1) =>
      match dec_z s1 with
      | None => None
      | Some (n, s2) =>
          match dec_z s2 with
          | None => None
          | Some (f, s3) =>
              match dec_z s3 with
              | None => None
              | Some (k, s4) =>
                  Some ({| ct_type := if t =? 0 then UnknownType else if t =? 1 then BoolType
                                      else if t =? 2 then StringType else if t =? 3 then BytesType
                                      else if t =? 4 then Float64Type else Int64Type;
                           ct_size := n; ct_fixed := f =? 1; ct_notnull := k =? 1 |}, s4)
              end
          end
      end
  end.
Lemma ct_ok : codec_ok enc_ct dec_ct.
Proof.
  intros [t n f k] s. unfold enc_ct, dec_ct. simpl. rewrite <- !app_assoc, !z_ok.
  destruct t, f, k; reflexivity.
Qed.

Definition enc_bs := enc_list enc_byte.
Definition dec_bs (fuel : nat) : dec_of bytes := dec_list dec_byte fuel.

(** Every part with the length of the whole as fuel. *)
Definition enc_wt (w : wiretype) : bytes :=
  enc_z (wt_version w) ++ enc_bs (wt_database w) ++ enc_bs (wt_schema w) ++ enc_bs (wt_table w) ++
  enc_list enc_bs (wt_cols w) ++ enc_list enc_ct (wt_types w) ++ enc_list enc_z (wt_key w).
Definition dec_wt (s : bytes) : option wiretype :=
  let n := length s in
  match dec_z s with
  | None => None
  | Some (v, s1) =>
  match dec_bs n s1 with
  | None => None
  | Some (d, s2) =>
  match dec_bs n s2 with
  | None => None
  | Some (sc, s3) =>
  match dec_bs n s3 with
  | None => None
  | Some (t, s4) =>
  match dec_list (dec_bs n) n s4 with
  | None => None
  | Some (cs, s5) =>
  match dec_list dec_ct n s5 with
  | None => None
  | Some (ts, s6) =>
  match dec_list dec_z n s6 with
  | None => None
  | Some (k, _) =>
      Some {| wt_version := v; wt_database := d; wt_schema := sc; wt_table := t; wt_cols := cs;
              wt_types := ts; wt_key := k |}
  end end end end end end end.

Lemma cols_ok n l s : (length l < n)%nat -> Forall (fun c => length c < n)%nat l ->
  dec_list (dec_bs n) n (enc_list enc_bs l ++ s) = Some (l, s).
Proof.
  intros Hl F.
  assert (forall m, (length l < m)%nat -> dec_list (dec_bs n) m (enc_list enc_bs l ++ s) = Some (l, s)) as K.
  { clear Hl. induction F as [|c l Hc F IH]; intros [|m] Hm; simpl in *; try lia; [reflexivity|].
    rewrite <- app_assoc. unfold dec_bs at 1, enc_bs at 1. rewrite (list_ok enc_byte dec_byte byte_ok) by lia.
    rewrite IH by lia. reflexivity. }
  apply K. exact Hl.
Qed.

Definition GobLib_example : GobLib := {| x_gob_encode := enc_wt; x_gob_decode := dec_wt |}.

Lemma GobLib_example_ok : GobLib_ok GobLib_example.
Proof.
  intros [v d sc t cs ts k]. simpl. unfold dec_wt.
  remember (length (enc_wt _)) as n eqn:En.
  assert (length d < n /\ length sc < n /\ length t < n /\ length cs < n /\ length ts < n /\ length k < n)%nat
    as (H1 & H2 & H3 & H4 & H5 & H6).
  { rewrite En. unfold enc_wt. simpl. rewrite !app_length.
    pose proof (enc_list_length enc_byte d). pose proof (enc_list_length enc_byte sc).
    pose proof (enc_list_length enc_byte t). pose proof (enc_list_length enc_bs cs).
    pose proof (enc_list_length enc_ct ts). pose proof (enc_list_length enc_z k).
    unfold enc_bs, bytes in *. lia. }
  assert (Forall (fun c => length c < n)%nat cs) as H7.
  { assert (length (enc_list enc_bs cs) <= n)%nat as Hle.
    { rewrite En. unfold enc_wt. simpl. rewrite !app_length. lia. }
    clear -Hle. revert Hle. generalize n. induction cs as [|c cs IH]; intros m Hle; [constructor|].
    simpl in Hle. rewrite app_length in Hle. pose proof (enc_list_length enc_byte c).
    constructor; [unfold enc_bs, bytes in *; lia|]. apply IH. unfold enc_bs, bytes in *. lia. }
  clear En. unfold enc_wt. simpl. rewrite z_ok.
  unfold dec_bs at 1, enc_bs at 1. rewrite (list_ok enc_byte dec_byte byte_ok) by exact H1.
  unfold dec_bs at 1, enc_bs at 1. rewrite (list_ok enc_byte dec_byte byte_ok) by exact H2.
  unfold dec_bs at 1, enc_bs at 1. rewrite (list_ok enc_byte dec_byte byte_ok) by exact H3.
  rewrite cols_ok by assumption. rewrite (list_ok enc_ct dec_ct ct_ok) by exact H5.
  rewrite <- (app_nil_r (enc_list enc_z k)). rewrite (list_ok enc_z dec_z z_ok) by exact H6. reflexivity.
Qed.
