(** What a handshake does depends only on the bytes it reads. *)
From Coq Require Import Init.Byte Strings.Byte.
From Verif Require Export HostThm2.
Open Scope res_scope.

(** A reader that succeeds does so whatever follows what it read. *)
Definition r_local {E A} (f : stream -> res E A * stream) : Prop :=
  forall s a s1 t, f s = (Ok a, s1) -> f (s ++ t) = (Ok a, s1 ++ t).
Definition io_local {A} (m : IO A) : Prop :=
  forall s o a s1 o1 t, m s o = (Ok a, s1, o1) -> m (s ++ t) o = (Ok a, s1 ++ t, o1).

Lemma local_bind {A D} (m : IO A) (k : A -> IO D) : io_local m -> (forall a, io_local (k a)) -> io_local (io_bind m k).
Proof.
  intros M F s o d s1 o1 t H. unfold io_bind in *. destruct (m s o) as [[[a|e|] s2] o2] eqn:E; try discriminate.
  rewrite (M _ _ _ _ _ t E). apply F, H.
Qed.
Lemma local_ret {A} (r : res _ A) : io_local (io_ret r).
Proof. intros s o a s1 o1 t H. unfold io_ret in *. apply pair_eq in H as [H ->]. apply pair_eq in H as [-> ->]. reflexivity. Qed.
Lemma local_run {E A} (r : res E A) : io_local (io_run r).
Proof. apply local_ret. Qed.
Lemma local_write b : io_local (io_write b).
Proof. intros s o a s1 o1 t H. unfold io_write in *. apply pair_eq in H as [H ->]. apply pair_eq in H as [-> ->]. reflexivity. Qed.
Lemma local_read {E A} (f : stream -> res E A * stream) e : r_local f -> io_local (io_read f e).
Proof.
  intros F s o a s1 o1 t H. unfold io_read in *. destruct (f s) as [r s2] eqn:X. apply pair_eq in H as [H ->]. apply pair_eq in H as [H ->].
  destruct r as [a'| |]; try discriminate H. rewrite (F _ _ _ t X). cbn [map_err] in *. rewrite H. reflexivity.
Qed.

Lemma local_exact n : r_local (read_exact n).
Proof.
  intros s a s1 t H. unfold read_exact in *. destruct (n <=? len s) eqn:L; [|discriminate H]. apply N.leb_le in L.
  apply pair_eq in H as [H <-]. apply Ok_inj in H as <-. rewrite len_app.
  replace (n <=? len s + len t) with true by (symmetry; apply N.leb_le; lia).
  rewrite ntake_app_le, ndrop_app_le by exact L. reflexivity.
Qed.
Lemma local_packet buf pad bs : r_local (fun s => packet_parse buf s pad bs).
Proof.
  intros s a s1 t H. unfold packet_parse in *. destruct (negb (4 <=? len buf)); [discriminate H|].
  destruct (read_exact 4 s) as [[h|e|] s2] eqn:E; try discriminate. rewrite (local_exact _ _ _ _ t E). cbv zeta in *.
  destruct (h0 <- idx_to (splice 0 h buf) 4 ;; u32_of_slice h0) as [l|e|]; try discriminate.
  destruct (len (splice 0 h buf) <? l); [discriminate|]. destruct (l <? 8); [discriminate|].
  destruct (t0 <- idx_from (splice 0 h buf) 4 ;; idx_to t0 l) as [x|e|]; try discriminate.
  destruct (read_exact l s2) as [[d|e|] s3] eqn:F; try discriminate. rewrite (local_exact _ _ _ _ t F).
  apply pair_eq in H as [-> ->]. reflexivity.
Qed.
Lemma local_scan st : r_local (ident_scan st).
Proof.
  intros s. revert st. induction s as [|b s IH]; intros st a s1 t H; [discriminate H|]. cbn [app ident_scan] in *.
  destruct (ident_step st b) as [st'|]; [apply IH, H|]. apply pair_eq in H as [-> ->]. reflexivity.
Qed.
Lemma local_body g acc : r_local (ident_body g acc).
Proof.
  intros s. revert g acc. induction s as [|b s IH]; intros g acc a s1 t H; [discriminate H|]. cbn [app ident_body] in *.
  destruct (ident_body_step g acc b) as [[acc'|[g' acc']]|e|]; try discriminate; [|apply IH, H]. apply pair_eq in H as [-> ->]. reflexivity.
Qed.
Lemma local_ident : r_local ident_parse.
Proof.
  intros s a s1 t H. unfold ident_parse in *. destruct (ident_scan St_EolLf s) as [[x|e|] s2] eqn:E; try discriminate.
  rewrite (local_scan _ _ _ _ t E). destruct (read_exact 4 s2) as [[b|e|] s3] eqn:F; try discriminate. rewrite (local_exact _ _ _ _ t F).
  destruct (negb (bytes_eqb b (B "2.0-"))); [discriminate|]. destruct (ident_push_all [] (B "SSH-2.0-")) as [acc|e|]; try discriminate.
  destruct (ident_body false acc s3) as [[d|e|] s4] eqn:G; try discriminate. rewrite (local_body _ _ _ _ _ t G).
  apply pair_eq in H as [-> ->]. reflexivity.
Qed.

Lemma handshake_local H R : io_local (handle_new_client H R).
Proof.
  unfold handle_new_client, handle_new_client_on. cbv zeta. generalize (zeros 65536) (zeros 256). intros z1 z2.
  repeat lazymatch goal with
  | |- io_local (io_bind _ _) => refine (local_bind _ _ _ _); [|intros ?]
  | |- io_local (io_run _) => exact (local_run _)
  | |- io_local (io_write _) => exact (local_write _)
  | |- io_local (io_ret _) => exact (local_ret _)
  | |- io_local (io_read ident_parse _) => exact (local_read _ _ local_ident)
  | |- io_local (io_read _ _) => exact (local_read _ _ (local_packet _ _ _))
  | |- io_local (let '(_, _) := ?x in _) => destruct x
  end.
Qed.
