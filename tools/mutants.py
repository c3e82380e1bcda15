#!/usr/bin/env python3
"""The wrong programs tried by tools/mutate.py: writes the list given to `mutate.py run`."""
import json, sys
L = []
def m(file, defn, old, new, edit, *claims):
    L.append(dict(id='M%03d' % (len(L) + 1), file=(file if '/' in file else 'Model/' + file) + '.v', definition=defn, old=old, new=new,
                  edit=edit, claims=list(claims)))

# --- Clustering
m('Clustering', 'nearest_loop', '|| nltb N d min', '|| nleb N d min', 'the last of equally distant centroids wins', 'C01')
m('Clustering', 'nearest_loop', 'nltb N min (nof N 0) || nltb N d min', 'nltb N d min', 'no special case for the initial minimum -1', 'C01', 'C02')
m('Clustering', 'nearest_loop', 'then nearest_loop cs\' elemt (i + 1) i d', 'then nearest_loop cs\' elemt (i + 1) (i + 1) d', 'label off by one', 'C01', 'C02')
m('Clustering', 'nearest', 'nearest_loop c elemt 0 (-1) (nof N (-1))', 'nearest_loop c elemt 0 0 (nof N (-1))', 'label 0 for an empty set', 'C02')
m('Clustering', 'nearest', 'nearest_loop c elemt 0 (-1) (nof N (-1))', 'nearest_loop c elemt 0 (-1) (nof N 1)', 'initial minimum 1: only centroids closer than 1 are found', 'C01', 'C02')
m('Clustering', 'nearest_loop', 'let d := sdist Sp elemt c in', 'let d := sdist Sp c elemt in', 'arguments of Dist swapped', 'C01')
m('Clustering', 'map_label', 'map (fun x => fst (nearest c x)) elemts,', 'map (fun x => fst (nearest c x)) (rev elemts),', 'labels in reverse order', 'C03')
m('Clustering', 'map_label', 'map (fun x => snd (nearest c x)) elemts)', 'map (fun x => snd (nearest c x)) (tl elemts))', 'the first distance is missing', 'C03')
m('Clustering', 'dba_add', 'let* cards := sset cards label (n + 1) in\n        Ok (means, cards)', 'let* cards := sset cards label n in\n        Ok (means, cards)', 'cardinality not incremented', 'C05')
m('Clustering', 'dba_add', 'scombine Sp m n elemt 1', 'scombine Sp m 1 elemt 1', 'running average with weight 1', 'C05', 'C10', 'C18')
m('Clustering', 'dba_add', 'sset cards label 1 in', 'sset cards label 2 in', 'first element counted twice', 'C05')
m('Clustering', 'reduce_dba', 'elemts (repeat None (length c), repeat 0 (length c)).\n\n(** core/clustering.go:65-81', '(tl elemts) (repeat None (length c), repeat 0 (length c)).\n\n(** core/clustering.go:65-81', 'the first element is ignored', 'C05', 'C06')
m('Clustering', 'reduce_dba_for_labels', 'Ok (i + 1, means, cards))', 'Ok (i, means, cards))', 'all elements get the first label', 'C06')
m('Clustering', 'dba', "(scombine Sp m w y 1, w + 1)) xs", "(scombine Sp m w y 1, w)) xs", 'weight of the running mean not updated', 'C10')
m('Clustering', 'weighted_dba', 'Ok (i + 1, scombine Sp m w y wi, w + wi))', 'Ok (i + 1, scombine Sp m w y wi, w + 1))', 'total weight counts elements', 'C10')
m('Clustering', 'weighted_dba', 'let* w0 := sget weights 0 in', 'let w0 := 1 in', 'weight of the first element ignored', 'C10')
m('Clustering', 'loss_add', 'sset losses label (nadd N l (pow dist norm))', 'sset losses label (fst (pow dist norm, nadd N l l))', 'the loss is overwritten', 'C07')
m('Clustering', 'loss_add', 'sset losses label (nadd N l (pow dist norm))', 'sset losses label (nadd N l (fst (dist, pow dist norm)))', 'the norm is ignored', 'C07', 'C17')
m('Clustering', 'loss_add', 'let* cards := sset cards label (n + 1) in\n  let* l', 'let* cards := sset cards label 1 in\n  let* l', 'cardinalities at most 1', 'C07')
m('Clustering', 'reduce_loss_for_labels', 'let* centroid := sget c label in\n             let* r', 'let* centroid := sget c 0 in\n             let* r', 'distance to the first centroid', 'C06')
m('Clustering', 'fsum', 'fold_left (nadd N) l (nof N 0)', 'fold_left (nadd N) (tl l) (nof N 0)', 'first loss forgotten in the total', 'C07', 'C17')
# --- Par
m('Par', 'par_loop', 'if i =? degree - remainder then offset + 1', 'if i =? remainder then offset + 1', 'longer ranges from the wrong rank on', 'C04')
m('Par', 'par_loop', 'if i =? degree - remainder then offset + 1 else offset', 'offset', 'the remainder is not distributed', 'C03', 'C04', 'C08', 'C09')
m('Par', 'par_loop', '(start, e, i) :: par_loop', '(start, e, 0) :: par_loop', 'all goroutines have rank 0', 'C04')
m('Par', 'par_loop', "par_loop n' (i + 1) e offset", "par_loop n' (i + 1) (e + 1) offset", 'one element skipped between ranges', 'C03', 'C04', 'C08')
m('Par', 'par_ranges', 'if degree <? 0 then Panic', 'if degree <? 0 then Ok []', 'a negative degree does nothing', 'C04')
m('Par', 'map_label_process', 'indexed WDist (Z.to_nat start) dists', 'indexed WDist 0 dists', 'distances written from index 0 by every goroutine', 'C03')
m('Par', 'loss_aggregate_step', 'sset cards i (ci + qi)', 'sset cards i ci', 'cardinalities of the first part only', 'C08')
m('Par', 'loss_aggregate_step', 'sset losses i (nadd N li pi)', 'sset losses i (fst (li, nadd N li pi))', 'losses of the first part only', 'C08')
m('Par', 'loss_aggregate_step', '(map Z.of_nat (seq 0 (length (fst p)))) a in', '(map Z.of_nat (seq 1 (length (fst p) - 1))) a in', 'the first cluster is not aggregated', 'C08')
m('Par', 'dba_combine', 'Some (scombine Sp ad ci od oc)', 'Some (scombine Sp ad oc od ci)', 'weights swapped when averages are merged', 'C09', 'C18')
m('Par', 'dba_combine', 'sset cards i (ci + oc)', 'sset cards i ci', 'cardinalities not added', 'C09')
m('Par', 'dba_combine', 'let* cards := sset cards i oc in', 'let* cards := sset cards i 1 in', 'cardinality of a new cluster set to 1', 'C09')
m('Par', 'dba_combine', 'let* dbas := sset dbas i od in', 'let* dbas := sset dbas i None in', 'average of a cluster first seen in a later part is lost', 'C09', 'C18')
m('Par', 'build_result', 'let* d := sget data i in sset result i (Some d))', 'sset result i None)', 'empty clusters get nil', 'C09', 'C18')
m('Par', 'build_result', 'if 0 <? ci then', 'if 1 <? ci then', 'clusters of one element keep their previous centroid', 'C09', 'C18')
m('Par', 'par_dba_for_labels', "let* plabels := sslice labels start e in\n                  reduce_dba_for_labels", "let* plabels := sslice labels 0 (e - start) in\n                  reduce_dba_for_labels", 'every goroutine reads the first labels', 'C09')
m('Par', 'par_reduce_loss_for_labels', "let* plabels := sslice labels start e in\n                  reduce_loss_for_labels", "let* plabels := sslice labels 0 (e - start) in\n                  reduce_loss_for_labels", 'every goroutine reads the first labels', 'C08')
# --- Euclid
m('Euclid', 'sqsum_loop', 'nadd N sum (nmul N v v)', 'nadd N sum v', 'differences not squared', 'C11', 'C12', 'C17')
m('Euclid', 'point_dist', 'Ok (nsqrt N sum)', 'Ok sum', 'squared distance', 'C11')
m('Euclid', 'sqsum_loop', '  | _ :: _, [] => Panic\n  end.\n\n(** euclid/vectors.go:26-33', '  | _ :: _, [] => Ok sum\n  end.\n\n(** euclid/vectors.go:26-33', 'missing coordinates are ignored', 'C16')
m('Euclid', 'combine_loop', 'nadd N (nmul N x w1) (nmul N y w2)', 'nadd N (nmul N x w2) (nmul N y w1)', 'weights swapped', 'C13', 'C10', 'C33')
m('Euclid', 'combine_loop', 'ndiv N (nadd N (nmul N x w1) (nmul N y w2)) t', 'nadd N (nmul N x w1) (nmul N y w2)', 'no division by the total weight', 'C13', 'C10', 'C17', 'C19')
m('Euclid', 'combine_loop', '  | [], _ => Ok []\n  | x :: p1\', y :: p2\' =>\n      let* r', '  | [], _ => Ok p2\n  | x :: p1\', y :: p2\' =>\n      let* r', 'the trailing coordinates of the second vector are appended', 'C13', 'C16')
m('Euclid', 'point_combine', 'combine_loop p1 w1 p2 w2 (nadd N w1 w2)', 'combine_loop p1 w1 p2 w2 (nof N 2)', 'total weight 2', 'C13', 'C10')
m('Euclid', 'euclid_dim', '| p :: _ => slen p end', '| p :: _ => slen p - 1 end', 'dimension off by one', 'C41', 'C93')
# --- Cosinus
m('Cosinus', 'cos_dist', 'nsub N (nof N 1) c', 'c', 'similarity instead of distance', 'C14')
m('Cosinus', 'cosinus', 'Ok (ndiv N (ndiv N s n1) n2)', 'Ok (ndiv N s n1)', 'not divided by the second norm', 'C14')
m('Cosinus', 'norm', 'Ok (nsqrt N s)', 'Ok s', 'squared norms', 'C14')
m('Cosinus', 'scalar_loop', '  | _ :: _, [] => Panic', '  | _ :: _, [] => Ok product', 'missing coordinates are ignored', 'C16')
# --- Buffer
m('Buffer', 'new_data_buffer', 'sslice data (slen data - size) (slen data)', 'sslice data 0 size', 'the frame keeps the oldest elements', 'C27')
m('Buffer', 'new_data_buffer', 'Ok (mkBuffer [] tail (FixedSize size size))', 'Ok (mkBuffer [] tail (FixedSize size 1))', 'the second oldest element is evicted first', 'C27')
m('Buffer', 'new_data_buffer', 'if slen data <? size then', 'if slen data <=? size then', 'boundary case of the constructor (equivalent)', 'EQUIVALENT')
m('Buffer', 'strategy_push', 'let position := if position =? size then 0 else position in', 'let position := if position =? size then 1 else position in', 'wraps to position 1', 'C27')
m('Buffer', 'strategy_push', 'Ok (FixedSize size (position + 1), data)\n', 'Ok (FixedSize size position, data)\n', 'always overwrites the same position', 'C27')
m('Buffer', 'strategy_push', "Ok (InfiniteSize, data ++ [elemt])", "Ok (InfiniteSize, elemt :: data)", 'unbounded buffer prepends', 'C26', 'C20')
m('Buffer', 'buffer_push', 'mkBuffer (bpipe b ++ [elemt]) (bdata b) (bstrategy b)', 'mkBuffer (elemt :: bpipe b) (bdata b) (bstrategy b)', 'staged elements in reverse order', 'C26', 'C20')
m('Buffer', 'buffer_push', 'if slen (bpipe b) <? pipe_size', 'if slen (bpipe b) <=? pipe_size', '2001 elements can be staged', 'C28')
m('Buffer', 'buffer_push', '  else Some (store b elemt).', '  else Some (Ok b).', 'synchronous pushes are lost', 'C26', 'C68')
m('Buffer', 'buffer_apply', 'ofold store (bpipe b) (mkBuffer [] (bdata b) (bstrategy b))', 'ofold store (bpipe b) b', 'Apply does not empty the stage: elements stored at each Apply', 'C26', 'C28', 'C20')
m('Buffer', 'apply_next', 'mkBuffer pipe (bdata b) (bstrategy b)', 'b', 'one receive of Apply does not remove the element', 'C26')
m('Buffer', 'copy_buffer', 'new_data_buffer (bdata b) frame_size', 'new_data_buffer [] frame_size', 'the copy has no data', 'C29')
# --- Kmeans
m('Kmeans', 'seq_build_result', '| None => let* c := sget centroids i in sset result i (Some c)', '| None => let* c := sget centroids 0 in sset result i (Some c)', 'empty clusters get the first centroid', 'C18')
m('Kmeans', 'seq_iterate', 'seq_build_result centroids (fst r)', 'Ok (fst r)', 'empty clusters get nil', 'C18')
m('Kmeans', 'par_iterate', 'par_reduce_dba N Sp centroids data degree', 'par_reduce_dba N Sp centroids (tl data) degree', 'the parallel strategy forgets the first element', 'C18', 'C17')
m('Kmeans', 'impl_init', 'Ok (b, mkUsed (bdata b) (initializer (bdata b)))', 'Ok (b, mkUsed [] (initializer []))', 'initialization without data', 'C20', 'C68')
m('Kmeans', 'impl_iterate', 'let* b := buffer_apply b in Ok (b, mkUsed d r)', 'Ok (b, mkUsed d r)', 'an iteration does not apply the staged elements', 'C20', 'C68')
m('Kmeans', 'impl_iterate', 'let d := bdata b in\n  let r := iterate centroids d in\n  let* b := buffer_apply b in Ok (b, mkUsed d r)', 'let* b := buffer_apply b in\n  let d := bdata b in\n  let r := iterate centroids d in Ok (b, mkUsed d r)', 'an iteration applies the staged elements before working', 'C68')
m('Kmeans', 'impl_push', 'buffer_push b x alive', 'buffer_push b x (negb alive)', 'asynchronous when not alive', 'C68', 'C20')
# --- KmeansInit
m('KmeansInit', 'check', 'if k <? 1 then', 'if k <? 0 then', 'k = 0 accepted', 'C21', 'C22', 'C23')
m('KmeansInit', 'check', 'else if slen elemts <? k', 'else if slen elemts <=? k', 'k = n refused', 'C21', 'C22', 'C23')
m('KmeansInit', 'given_loop', "given_loop n' (i + 1) elemts", "given_loop n' i elemts", 'k times the first element', 'C21')
m('KmeansInit', 'rand_loop', 'if existsb (Z.eqb choice) chosen then', 'if false then', 'positions may be drawn twice', 'C22')
m('KmeansInit', 'rand_loop', "rand_loop draws' n' elemts (choice :: chosen) (centroids ++ [scopy Sp e])", "rand_loop draws' n' elemts chosen (centroids ++ [scopy Sp e])", 'drawn positions are not recorded', 'C22')
m('KmeansInit', 'weighted_choice', 'Ok (idx - 1, None)', 'Ok (idx, None)', 'index off by one', 'C24', 'C23')
m('KmeansInit', 'cursor_loop', 'nltb N (nof N 0) cursor then', 'nleb N (nof N 0) cursor then', 'loop goes on while cursor >= 0', 'C24')
m('KmeansInit', 'weighted_choice', 'cursor_loop weights 0 (nmul N r sum)', 'cursor_loop weights 0 (nmul N (nmul N r r) sum)', 'squared draw', 'C24')
m('KmeansInit', 'weighted_choice', 'if neqb N sum (nof N 0) then Ok (0, Some ErrNullSet)\n  else', 'let _ := 0 in', 'null sets not detected', 'C24', 'C23')
m('KmeansInit', 'pp_iter', 'weighted_choice (snd ld) r', 'weighted_choice (map (fun _ => nof N 1) (snd ld)) r', 'uniform choice instead of distances', 'C23')
m('KmeansInit', 'pp_loop', '| Some e => Ok (found ++ [fst ce], Some e)', "| Some e => pp_loop degree n' (S i) (found ++ [fst ce]) elemts rs", 'ErrNullSet ignored', 'C23')
m('KmeansInit', 'pp_initializer', 'pp_loop degree (Z.to_nat k - 1) 1 [c0] elemts rs', 'pp_loop degree (Z.to_nat k) 1 [c0] elemts rs', 'k + 1 centroids', 'C23')
m('KmeansInit', 'pp_initializer', 'pp_loop degree (Z.to_nat k - 1) 1 [c0] elemts rs', 'pp_loop degree (Z.to_nat k - 2) 1 [c0] elemts rs', 'the last centroid is nil', 'C23')
# --- Finish
m('Finish', 'iter_is_finished', 'if (0 <? iter) || (0 <? iter_per_data) then', 'if (0 <? iter) then', 'IterPerData alone sets no budget', 'C30', 'C56')
m('Finish', 'iter_is_finished', '<=? int_of_b64 iterations', '<? int_of_b64 iterations', 'one iteration too many', 'C30', 'C56')
m('Finish', 'iter_is_finished', 'iter + int_of_b64 pushed * iter_per_data', 'iter + int_of_b64 pushed + iter_per_data', 'sum instead of product', 'C30', 'C56')
m('Finish', 'status_is_finished', 'let cond := error && match', 'let cond := match', 'the error flag is ignored', 'C30')
m('Finish', 'status_loop', 'if cond then cond else status_loop l\' value cond', 'status_loop l\' value cond', 'only the last listed status counts', 'C30')
m('Finish', 'finishing_is_finished', 'if negb cond then cond else loop l\' cond\n         end) l false', 'if negb cond then cond else loop l\' cond\n         end) l true', 'an empty And is finished', 'C30')
m('Finish', 'finishing_is_finished', 'if cond then cond else loop l\' cond', 'loop l\' cond', 'Or is its last member', 'C30')
m('Finish', 'is_finished', 'match f with None => false | Some g', 'match f with None => true | Some g', 'a nil finishing is finished', 'C30')
# --- Conf
m('Conf', 'ctrl_verify', 'let err := check err (cc_timeout c <? 0) ETimeout in', '', 'negative Timeout accepted', 'C31')
m('Conf', 'ctrl_verify', '(cc_iter c <? 0)', '(cc_iter c <? 1)', 'Iter = 0 refused', 'C31')
m('Conf', 'ctrl_verify', 'match err with None => if b then Some e else None | Some _ => err end', 'if b then Some e else None', 'a later check forgets the error', 'C31')
m('Conf', 'prepare_conf', '| Some e => (c, Some e)\n  end.', '| Some e => (c, ctrl_verify (co_ctrl ops c))\n  end.', 'the error of Verify is dropped', 'C31')
m('Conf', 'kmeans_verify', 'if km_k c <? 1', 'if km_k c <? 0', 'K = 0 accepted', 'C31')
m('Conf', 'mcmc_set_defaults', '(default_int (mc_max_k c) 16)', '(mc_max_k c)', 'no default for MaxK', 'C31')
m('Conf', 'mcmc_verify', 'if (mc_max_k c <? mc_init_k c)', 'if (mc_max_k c <=? mc_init_k c)', 'InitK = MaxK refused', 'C31')
m('Conf', 'streaming_verify', 'if sc_out_after c <? 2', 'if sc_out_after c <? 1', 'OutAfter = 1 accepted', 'C31')
m('Conf', 'streaming_set_defaults', '(default_int (sc_buffer_size c) 100)', '(default_int (sc_buffer_size c) 10)', 'default BufferSize 10', 'C31')
m('Conf', 'streaming_new_algo', 'if sc_buffer_size c <? slen data then Panic', 'if sc_buffer_size c <=? slen data then Panic', 'a full buffer is refused', 'C31')
m('Conf', 'streaming_set_defaults', '(default_float (sc_mu c) (b64_div (b64_of_Z 1) (b64_of_Z 2)))', '(b64_add (sc_mu c) (b64_of_Z 1))', 'the defaults are not idempotent', 'C31')
# --- Streaming
m('Streaming', 'update_max', 'if nltb N max distance then distance else max', 'fst (distance, nltb N max distance)', 'the maximum is the last distance', 'C35')
m('Streaming', 'relative_distance', 'if neqb N max (nof N 0) then distance else max', 'if neqb N max (nof N 0) then nof N 1 else max', 'a null maximum becomes 1', 'C35')
m('Streaming', 'add_center', '(update_max (s_max s) distance) (s_clust s ++ [x]) (s_cards s ++ [1])', '(update_max (s_max s) distance) (s_clust s ++ [x]) (s_cards s ++ [0])', 'new centers have cardinality 0', 'C32', 'C33')
m('Streaming', 'add_outlier', 'mkStreaming (s_max s) (s_clust s ++ [x]) (s_cards s ++ [1])', 'mkStreaming (s_max s) (s_clust s) (s_cards s)', 'outliers are dropped', 'C32', 'C36')
m('Streaming', 'update_center', 'scombine Sp c n x 1', 'scombine Sp c 1 x 1', 'centers are averaged with weight 1', 'C33')
m('Streaming', 'update_center', 'sset (s_cards s) label (n + 1)', 'sset (s_cards s) label n', 'cardinality not incremented', 'C32')
m('Streaming', 'process', '(out_after <=? s_count s) && nltb N out_ratio relative', 'fst (nltb N out_ratio relative, out_after)', 'outliers from the first element on', 'C36')
m('Streaming', 'process', 'else if nltb N threshold relative then', 'else if nltb N relative threshold then', 'the comparison with the draw is reversed', 'C36')
m('Streaming', 'process', 'Ok (mkStreaming (s_max s) (s_clust s) (s_cards s) (s_queue s) (s_count s + 1))', 'Ok (mkStreaming (s_max s) (s_clust s) (s_cards s) (s_queue s) (s_count s))', 'processed elements are not counted', 'C34', 'C36')
m('Streaming', 'process', 'Ok (add_outlier s x)', 'Ok (add_center s x distance)', 'outliers change the maximum', 'C35', 'C36')
m('Streaming', 'streaming_push', '(s_queue s ++ [x])', '(x :: s_queue s)', 'last in first out', 'C34')
m('Streaming', 'streaming_push', '<? buffer_size', '<=? buffer_size', 'one more element in the queue', 'C34')
m('Streaming', 'streaming_push', 'else (s, true)', 'else (s, false)', 'a full queue drops the element silently', 'C34')
m('Streaming', 'streaming_iterate', '| [] => Ok (s, None)', '| [] => Ok (mkStreaming (s_max s) (s_clust s) (s_cards s) [] (s_count s + 1), None)', 'idle iterations are counted', 'C34')
m('Streaming', 'streaming_init', '| [] => (s, None)', '| [] => (s, Some [])', 'initialization without data succeeds', 'C34')
# --- Heap
m('Heap', 'append', 'if (sl_len s <? length a)%nat', 'if false', 'append always copies', 'C38')
m('Heap', 'hseq_iterate', "let r := mkSlice (length m) (sl_len c) in", "let r := c in", 'k-means reuses the slice of the centroids', 'C38')
# --- Dtw
m('Dtw', 'eff_stride', 'if 2 * window + 1 <? l2 then 2 * window + 1 else l2', 'if 2 * window <? l2 then 2 * window else l2', 'row one cell too short', 'C46')
m('Dtw', 'ravel', 'if window <? i then i * stride + (j - i + window)', 'if window <? i then i * stride + (j - i)', 'cells before the diagonal go to the previous row', 'C46')
m('Dtw', 'in_window', '(i - j <=? window) && (j - i <=? window)', '(i - j <? window) && (j - i <? window)', 'window too small by one', 'C46', 'C47')
m('Dtw', 'min3', 'if nleb N v1 v2 && nleb N v1 v3 then v1 else', 'if nleb N v1 v2 then v1 else', 'not the minimum', 'C47')
m('Dtw', 'neighbor_costs', 'let* ul := cget values (i1 - 1) (i2 - 1) in', 'let* ul := cget values (i1 - 1) i2 in', 'diagonal neighbour not read', 'C47', 'C48')
m('Dtw', 'cell', 'Ok (nadd N (min3 ul u l) dist)', 'Ok (min3 ul u l)', 'cost of the cell not added', 'C47')
m('Dtw', 'cell', 'let* c := cget values i1 (i2 - 1) in Ok (nadd N c dist)', 'Ok dist', 'first row not accumulated', 'C47')
m('Dtw', 'decr_path', 'if nleb N ul u && nleb N ul l then (i1 - 1, i2 - 1)', 'if nleb N ul u && nleb N ul l then (i1 - 1, i2)', 'diagonal steps go left', 'C48')
m('Dtw', 'decr_path', 'if nleb N l u then (i1 - 1, i2) else (i1, i2 - 1)', 'if nleb N u l then (i1 - 1, i2) else (i1, i2 - 1)', 'the worst of the two neighbours', 'C48')
m('Dtw', 'path_loop', 'else Ok [(0, 0)]', 'else Ok []', 'the path misses (0,0)', 'C48', 'C53')
m('Dtw', 'new_dtw_window', 'cget w stride values (slen s1 - 1) (slen s2 - 1)', 'cget w stride values 0 0', 'distance of the first points', 'C47')
m('Dtw', 'row_right', 'else i1 + window', 'else i1 + window - 1', 'last cell of the rows not computed', 'C47')
m('Dtw', 'interp_step', 'pcombine a (v - x) b (x - va)', 'pcombine a (x - va) b (v - x)', 'interpolation weights swapped', 'C51')
m('Dtw', 'interpolate', 'let last := Z.quot e shrink + 1 in', 'let last := Z.quot e shrink in', 'last point lost', 'C51', 'C53')
m('Dtw', 'resize', 'i * (size - 1)', 'i * size', 'one point too many', 'C51')
m('Dtw', 'shrink_longest', 'if (0 <? window) && (slen s2 + window <? slen s1) then\n    let* r := resize s1 (slen s2 + window)', 'if (0 <? window) && (slen s2 + window <? slen s1) then\n    let* r := resize s1 (slen s2 + window + 1)', 'shrunk to one point too many', 'C52')
m('Dtw', 'shrink_longest', 'let* r := resize s2 (slen s1 + window) in', 'let* r := resize s2 (slen s1) in', 'shrunk more than needed', 'C52')
m('Dtw', 'dtw_dba', 'Ok (pcombine a w1 b w2)) path', 'Ok (pcombine a w2 b w1)) path', 'weights swapped in the average', 'C53')
m('Dtw', 'dtw_dba', 'fst ends * w1 + snd ends * w2', 'fst ends * w1 + fst ends * w2', 'positions of the first series only', 'C53')
# --- Mcmc
m('Mcmc', 'next_k', 'if new_k <? 1 then 1', 'if new_k <? 0 then 0', '0 centers possible', 'C39')
m('Mcmc', 'next_k', 'else if mp_max_k conf <? new_k then mp_max_k conf\n', '', 'MaxK ignored', 'C39')
m('Mcmc', 'next_k', 'else if slen data <? new_k then slen data\n', '', 'the number of data is ignored', 'C39')
m('Mcmc', 'next_k', 'sget [-1; 0; 1] (fst ie)', 'sget [-2; 0; 1] (fst ie)', 'two centers removed at once', 'C39')
m('Mcmc', 'store_set', '(slen c, c) :: s', '(slen c + 1, c) :: s', 'stored under the wrong k', 'C40', 'C43')
m('Mcmc', 'store_get', "if k' =? k then Some c", "if k <=? k' then Some c", 'stored centers of another k', 'C43', 'C40')
m('Mcmc', 'gen_centers', 'if slen prev <? k then add_center data prev r', 'if slen prev <? k then match add_center data prev r with Ok _ => Ok (prev, None) | Panic => Panic end', 'no center added', 'C43', 'C40')
m('Mcmc', 'del_center', 'if i <? del then i else i + 1', 'i', 'always the last center removed', 'C43')
m('Mcmc', 'accept_figures', 'dim * (pr_k current - pr_k prop)', 'dim * (pr_k prop - pr_k current)', 'sign of the k term', 'C41')
m('Mcmc', 'accept_figures', 'nsub N (pr_loss current) (pr_loss prop)', 'nsub N (pr_loss prop) (pr_loss current)', 'sign of the loss term', 'C41')
m('Mcmc', 'accept_figures', 'nof N (dim + 3)', 'nof N (dim + 2)', 'constant of lambda', 'C41')
m('Mcmc', 'accept', 'nltb N u rho', 'nleb N u rho', 'accepted when the draw equals rho', 'C41')
m('Mcmc', 'accept', 'nltb N u rho', 'nltb N rho u', 'acceptance reversed', 'C41')
m('Mcmc', 'do_iter', '(store_set (mi_store m) (pr_centers prop)) (mi_acc m + 1)', '(store_set (mi_store m) (pr_centers prop)) (mi_acc m)', 'acceptations not counted', 'C40')
m('Mcmc', 'do_iter', 'lambda rho rgibbs (mi_time m) (mi_dim m) current, centroids)', 'lambda rho rgibbs (mi_time m) (mi_dim m) prop, centroids)', 'a rejected proposal becomes the current one', 'C42', 'C40')
m('Mcmc', 'do_iter', 'else Ok (mkMimpl (mi_buffer m) (mi_store m) (mi_acc m)', 'else Ok (mkMimpl (mi_buffer m) (store_set (mi_store m) (pr_centers prop)) (mi_acc m)', 'rejected centers are stored', 'C42')
m('Mcmc', 'propose', 'let* centers := strategy_iter 1 centers data in', 'let* centers := strategy_iter 0 centers data in', 'no k-means iteration in a proposal', 'C73')
m('Mcmc', 'proba', 'nadd N p d', 'd', 'density of the last center only', 'C74', 'C41')
m('Mcmc', 'mcmc_init', '(mkProposal (mp_init_k conf) centroids loss pdf), cs, None)', '(mkProposal 0 centroids loss pdf), cs, None)', 'k of the first proposal is 0', 'C40', 'C39')
m('Mcmc', 'get_k_centers', 'let k := pr_k current in\n      let* ce := get_centers (mi_store m) data k centroids', 'let k := pr_k current + 1 in\n      let* ce := get_centers (mi_store m) data k centroids', 'the second try asks for one more center', 'C39', 'C72')
m('Mcmc', 'dirac', "(fun _ mu _ => Ok mu) (fun _ _ _ => Ok (nof N 1))", "(fun _ mu _ => Ok mu) (fun _ _ _ => Panic)", 'the density of Dirac panics', 'C72', 'C73')
# --- MultivT
m('MultivT', 'shift_loop', 'nadd N shift (nmul N f f)', 'nadd N shift f', 'differences not squared', 'C45')
m('MultivT', 'mt_pdf', 'nsub N (nof N 0) (mt_power m)', '(mt_power m)', 'sign of the power', 'C45')
m('MultivT', 'mt_pdf', 'nof N 1) (ndiv N shift scale)', 'nof N 1) (nmul N shift scale)', 'multiplied by the scale', 'C71')
m('MultivT', 'mt_pdf', 'let scale := ndiv N (mt_nu m) (nsqrt N (nof N (time * 20))) in', 'let scale := ndiv N (mt_nu m) (nof N (time * 20)) in', 'the scale the density should have', 'C71')
m('MultivT', 'mt_sample', 'nsqrt N (ndiv N (mt_nu m) (no_chi2 z))', 'nsqrt N (ndiv N (no_chi2 z) (mt_nu m))', 'ratio inverted', 'C71')
# --- LateDistrib
m('LateDistrib', 'go_step', '| AtRecheck => Some (l, if l_initialized l then AtUnlock else AtBuild)', '| AtRecheck => Some (l, AtBuild)', 'no second check under the lock', 'C44')
m('LateDistrib', 'go_step', '      | Some _ => None\n', '      | Some _ => Some (l, AtRecheck)\n', 'the lock does not exclude', 'C44')
m('LateDistrib', 'go_step', '| AtUnlockPanic => Some (mkLate (l_initialized l) (l_distrib l) None', '| AtUnlockPanic => Some (mkLate (l_initialized l) (l_distrib l) (l_owner l)', 'the lock is kept after a panic of the builder', 'C44')
m('LateDistrib', 'go_step', "(x :: l_started l) (d :: l_built l), AtStore d)", "(x :: l_started l) (d :: l_built l), AtSet)", 'the distribution is not stored', 'C44')
m('LateDistrib', 'go_step', "(x :: l_started l) (d :: l_built l), AtStore d)\n", "(x :: l_started l) (d :: l_built l), AtUnlock)\n", 'never initialized', 'C44')
# --- CtrlCode / CtrlLang
m('CtrlCode', 'set_status', '[ILock MStatus; ISetStatus e; IUnlock MStatus]', '[ISetStatus e]', 'the status is set without its mutex', 'C67')
m('CtrlCode', 'pause_call', '[IGet (GErr (Some ErrNotRunning)); IUnlock MStatus]]', '[IGet (GErr (Some ErrNotRunning))]]', 'a refused Pause leaves the mutex locked', 'C67', 'C54')
m('CtrlCode', 'play_call', '[IUnlock MStatus; IGet (GErr (Some ErrRunning))]', '[IUnlock MStatus; IUnlock MStatus; IGet (GErr (Some ErrRunning))]', 'unlocked twice', 'C67')
m('CtrlCode', 'init_code', '([ILock MModel; IModel MReset; IUnlock MModel] ++ init_common)', '([IModel MReset] ++ init_common)', 'reset without the model mutex', 'C67')
m('CtrlCode', 'loop_body', 'IIf CSaved [ILock MModel; IModel MSave; IUnlock MModel] []', 'IIf CSaved [ILock MModel; IModel MSave; IModel MSave; IUnlock MModel] []', 'iterations are saved twice', 'C57', 'C58')
m('CtrlCode', 'init_code', '[IIf (CStatus Created)\n          ([IMakeNotif', '[IIf (CStatus Running)\n          ([IMakeNotif', 'a running algorithm can be initialized', 'C54', 'C66')
m('CtrlCode', 'recover_code', 'IIf CPanic (set_status (XError SrcPanic) false) []', 'IIf CPanic (set_status (XValue Idle) false) []', 'a panic makes the algorithm idle', 'C58', 'C54')
m('CtrlCode', 'interrupt_code', 'set_status (XError (SrcConst e)) false ++ [IUnlock MStatus]', 'set_status (XValue Created) false ++ [IUnlock MStatus]', 'Stop of a ready algorithm goes back to Created', 'C54')
m('CtrlCode', 'run_end', 'set_status (XValue Ready) true', 'set_status (XValue Created) true', 'the end of a run goes back to Created', 'C54')
m('CtrlCode', 'run_code', '[IMakeAck; IGet GModel; IDefer recover_code]', '[IMakeAck; IGet GModel]', 'panics of Iterate are not recovered', 'C58')
m('CtrlCode', 'push_call', "[ILock MModel; IModel MPushed]", "[ILock MModel]", 'pushes are not counted', 'C57')
m('CtrlLang', 'model_reset', '(m_new m) 0 0 0 0 in', '(m_new m) 0 (m_iter m) 0 0 in', 'the iteration count is not reset', 'C57')
m('CtrlLang', 'model_save', '(m_iter m + 1)', '(m_iter m)', 'iterations not counted', 'C57', 'C56')
m('CtrlLang', 'model_save', 'None => [] | Some rf => rf end in', 'None => [] | Some rf => [] end in', 'figures of the implementation are dropped', 'C57')
m('CtrlLang', 'update_figures', '"pushedData" (b64_of_Z (m_pushed m))', '"pushedData" (b64_of_Z (m_iter m))', 'wrong pushedData figure', 'C57', 'C56')
m('CtrlLang', 'model_new_data', '(0 <? cf_dpi cf)%Z && (cf_dpi cf <=? m_new m)%Z', '(cf_dpi cf <=? m_new m)%Z', 'DataPerIter = 0 restarts at each push', 'C64')
m('CtrlLang', 'model_new_data', '(cf_dpi cf <=? m_new m)%Z', '(cf_dpi cf <? m_new m)%Z', 'one push more before a restart', 'C64')
m('CtrlLang', 'run_finishing', '| Some g => Some (FOr [Some (FIter (cf_iter cf) (cf_ipd cf)); Some g])', '| Some g => Some g', 'the budget is ignored with a user finishing', 'C56')
m('CtrlLang', 'wait_finishing', 'FStatus [Ready; Idle; Finished] true', 'FStatus [Ready; Idle] false', 'Wait does not stop when finished', 'C65', 'C55')
m('CtrlLang', 'step', '| IterPanic n => Some (do_panic t n th st)', '| IterPanic n => Some (go_on t th k l s ths)', 'panics of Iterate are ignored', 'C58')
# --- CtrlSeq
m('CtrlSeq', 'wait_loop', 'if is_finished f (obs s) then Some (s\', st_error (fm_status (obs s\')))', 'if is_finished f (obs s) then Some (s\', None)', 'Wait drops the error of the status', 'C65', 'C58')
m('CtrlSeq', 'wait_loop', 'else if (0 <? d)%Z && (deadline <? now)%Z', 'else if (deadline <? now)%Z', 'Wait without duration times out', 'C65')
m('CtrlSeq', 'wait_timeout', '(start + d) ps s', 'd ps s', 'the deadline does not depend on the start', 'C65')
m('CtrlSeq', 'end_run', 'q_set q (new_status Ready) else q', 'q_set q (new_status Idle) else q', 'a run that spent its budget becomes Idle', 'C54', 'C56')
m('CtrlSeq', 'end_run', '| Some e => q_set q (new_status_error e)', '| Some e => q_set q (new_status Finished)', 'the error is lost', 'C58')
m('CtrlSeq', 'settle', "&& negb (is_finished (run_finishing cf) (q_fin q))", "", 'the budget is not checked', 'C56')
m('CtrlSeq', 'turn', '| Some _ => q_event (q_upd q (model_save (q_model q) c f duration)) (EvSaved c f)', '| Some _ => q', 'iterations are not saved', 'C56', 'C58')
m('CtrlSeq', 'interrupt', '| Ready, _ => Some (q_set q fin, None)', '| Ready, _ => Some (q, Some ErrNotAlive)', 'Stop refuses a ready algorithm', 'C55')
m('CtrlSeq', 'interrupt', '| _, _ => Some (q, Some ErrNotAlive)', '| _, _ => Some (q_set q fin, None)', 'Stop accepts a created algorithm', 'C55', 'C54')
m('CtrlSeq', 'init_seq', '| _ => (q, Some ErrAlreadyCreated)', '| _ => init_common_seq r q', 'Init accepts an alive algorithm', 'C55', 'C54')
m('CtrlSeq', 'init_seq', '| Finished => init_common_seq r (q_event (q_upd q (model_reset (q_model q))) EvReset)', '| Finished => init_common_seq r q', 'Init after a stop does not reset the counters', 'C57', 'C56')
m('CtrlSeq', 'play_seq', '| Running, _ => Some (q, Some ErrRunning)', '| Running, _ => Some (start_seq q, None)', 'Play starts a second run', 'C55')
m('CtrlSeq', 'play_seq', '| Some e => Some (q_lock q, Some e)', '| Some e => Some (q, Some e)', 'a failed Play unlocks the mutex (correct program)', 'C59')
m('CtrlSeq', 'play_seq', '| Some e => Some (q_lock q, Some e)', '| Some e => Some (start_seq q, Some e)', 'a failed Play starts a run', 'C55', 'C54')
m('CtrlSeq', 'pause_seq', '| _, _ => Some (q, Some ErrNotRunning)', '| _, _ => Some (q, None)', 'Pause always succeeds', 'C55')
m('CtrlSeq', 'push_seq', 'if (m_new (q_model q) =? 0)%Z', 'if false', 'no automatic start', 'C64')
m('CtrlSeq', 'push_seq', '| Some n => Some (q, Some (ErrImpl n))', '| Some n => Some (q_event (q_upd q (model_pushed (q_model q) now)) EvPushed, Some (ErrImpl n))', 'refused pushes are counted', 'C57', 'C55')
m('CtrlSeq', 'wait_seq', '| Idle => Some (q, Some ErrIdle)', '| Idle => Some (q, None)', 'Wait succeeds when idle', 'C55')
m('CtrlSeq', 'wait_seq', 'if never_finish f d then Some (q, Some ErrNeverFinish)\n        else ', '', 'Wait never detects endless runs', 'C55')
m('CtrlSeq', 'never_finish', '(cf_iter cf =? 0)%Z && (cf_ipd cf =? 0)%Z', '(cf_iter cf =? 0)%Z', 'IterPerData ignored by the check', 'C55')
m('CtrlSeq', 'batch_seq', 'match interrupt None now q with None => None | Some (q, _) => Some (q, None) end', 'Some (q, None)', 'Batch does not stop at the end', 'C79')
m('CtrlSeq', 'batch_seq', '| Some (q, Some e) => Some (q, Some e)\n            | Some (q, None) => match', '| Some (q, Some e) => Some (q, None)\n            | Some (q, None) => match', 'Batch drops the error of Wait', 'C79')
m('CtrlSeq', 'advance', 'if q_timer q then', 'if true then', 'a disabled timer fires', 'C56')
# --- corrected programs: the refutations must fail
m('Streaming', 'relative_distance', '(max, ndiv N distance max)', '(max, if nltb N (nof N 1) (ndiv N distance max) then nof N 1 else ndiv N distance max)', 'ratio capped at 1 as documented', 'C37')
m('Dtw', 'eff_window', 'if window =? 0 then l2 else window', 'if window =? 0 then l2 + 1000000 else window', 'window 0 is practically unlimited', 'C50', 'C49')
m('LateDistrib', 'access', '| AtCheck | AtRecheck => Some (FInitialized, false)', '| AtRecheck => Some (FInitialized, false)\n  | AtCheck => None', 'the first check is synchronized', 'C70')
m('CtrlCode', 'play_init', '[IIf CInitFailed [ILeak MStatus]', '[IIf CInitFailed [IUnlock MStatus]', 'a failed Play unlocks the status mutex', 'C59')
m('CtrlCode', 'push_call', 'IIf CNewZero play_call []; IGet (GErr None); IRUnlock MModel]', 'IRUnlock MModel; IIf CNewZero play_call []; IGet (GErr None)]', 'the automatic Play does not hold the model mutex', 'C75', 'C60')
m('KmeansInit', 'cursor_loop', '| [] => Panic', '| [] => Ok idx', 'the cursor stops at the last weight', 'C25')
m('Cosinus', 'cos_dist', 'nsub N (nof N 1) c', '(if nltb N (nof N 1) c then nof N 0 else nsub N (nof N 1) c)', 'distance clamped at 0', 'C15')
m('CtrlCode', 'timer_code', '[IIf CEnabled (interrupt_code (Some ErrTimeout)) []]', '[]', 'the timer does nothing', 'C78')
m('CtrlLang', 'comm', 'Some (mkState (deliver_log t c v (s_sh st))', 'Some (mkState (s_sh st)', 'notifications are not logged', 'C66')
# --- the controller with an implementation
m('System', 'sys_advance', "(advance cf (PTurn r duration now) q, i')", "(advance cf (PTurn r duration now) q, i)", 'the state of the implementation after an iteration is dropped', 'C86', 'C88', 'C91')
m('System', 'sys_advance', 'im_iterate im d i (m_centroids (q_model q))', 'im_iterate im d i None', 'iterations always start from no centroids', 'C87', 'C92')
m('System', 'inits', 'Created | Finished => true', 'Created => true | Finished => false', 'a finished algorithm is not initialized again', 'C86', 'C87')
m('System', 'inits', 'Created | Finished => true | _ => false', '_ => true', 'an alive algorithm is initialized by Play', 'C87', 'C90')
m('System', 'sys_push', "lift i' (push_seq", "lift i (push_seq", 'the implementation forgets the pushed element', 'C86', 'C88')
m('System', 'sys_push', 'im_push im i x (st_alive (q_status q))', 'im_push im i x (negb (st_alive (q_status q)))', 'alive and not alive confused', 'C86')
m('System', 'sys_batch', 'match interrupt None now (fst s) with None => None | Some (q, _) => Some ((q, snd s), None) end', 'Some (s, None)', 'Batch does not stop the algorithm at the end', 'C87', 'C92')
m('System', 'kmeans_implem', '(fun d b =>\n         match buffer_apply b with', '(fun d b =>\n         match Ok b with', 'Init does not apply the staged elements', 'C86', 'C87')
m('System', 'kmeans_implem', "| Ok l, Ok b' => match all_some l with Some c' => (b', ", "| Ok l, Ok b' => match all_some l with Some c' => (b, ", 'an iteration does not apply the staged elements', 'C86')
m('System', 'kmeans_implem', "(b', IterRes (Some c') None None)", "(b', IterRes c None None)", 'an iteration returns the centroids it got', 'C87')
m('System', 'kmeans_implem', '| Some (Ok b\') => Some (b\', None)', '| Some (Ok b\') => Some (b, None)', 'Push loses the element', 'C86')
m('System', 'streaming_implem', "Some (s', if full then Some 2 else None)", "Some (s', None)", 'a full queue is not an error', 'C88')
m('System', 'streaming_implem', "| Ok (s', c) => (s', IterRes c", "| Ok (s', c) => (s, IterRes c", 'the state after an iteration is dropped', 'C88')
m('System', 'streaming_implem', "IterRes c (Some", "IterRes None (Some", 'streaming publishes nothing', 'C88', 'C90')
m('SystemMcmc', 'mcmc_implem', "(m', IterRes (Some c')", "(m, IterRes (Some c')", 'the state after an iteration is dropped', 'C91', 'C92')
m('SystemMcmc', 'mcmc_implem', "IterRes (Some c') (Some (mcmc_figures f)) None)", "IterRes c (Some (mcmc_figures f)) None)", 'the centroids of the proposal are not published', 'C91', 'C92')
m('SystemMcmc', 'mcmc_implem', '| Some (Ok b) => Some (set_buffer m b, None)', '| Some (Ok b) => Some (m, None)', 'Push loses the element', 'C91', 'C92')
m('SystemMcmc', 'mcmc_implem', "Some (m', (all_some cs, option_map error_code err))", "Some (m', (all_some cs, None))", 'the error of the initializer is lost', 'C91', 'C92')
m('SystemMcmc', 'mcmc_figures', '(nof N (f_time f))', '(nof N (f_time f + 1))', 'the time figure counts one more', 'C99')
m('SystemMcmc', 'mcmc_figures', '("acceptations"%string, to64 (nof N (f_acceptations f)))', '("acceptations"%string, to64 (nof N (f_time f)))', 'the acceptations figure is the time', 'C99')
m('DtwSpace', 'series_dim', '(p :: _) :: _ => slen p', 'p :: _ => slen p', 'the dimension is the length of the first series', 'C93')
m('DtwSpace', 'dtw_space', 'dtw_combine N inf pdist pcombine window a wa b wb', 'dtw_combine N inf pdist pcombine window a 1 b 1', 'the weights are ignored', 'C94')
# --- float64 and convergence
m('Euclid', 'point_combine', 'combine_loop p1 w1 p2 w2 (nadd N w1 w2)', 'combine_loop p1 w1 p2 w2 (fst (w1, nadd N w1 w2))', 'the total weight is the first one', 'C80', 'C81', 'C86')
m('Euclid', 'combine_loop', 'nadd N (nmul N x w1) (nmul N y w2)', 'nsub N (nmul N x w1) (nmul N y w2)', 'difference instead of sum', 'C80', 'C81')
m('Clustering', 'dba_add', 'scombine Sp m n elemt 1', 'scombine Sp m (n + 1) elemt 1', 'one element too many in the running mean', 'C82', 'C83', 'C81')
m('Kmeans', 'seq_iterate', 'seq_build_result centroids (fst r)', 'seq_build_result (rev centroids) (fst r)', 'empty clusters get the centroid of another cluster', 'C82', 'C83', 'C84')
m('Kmeans', 'par_iterate', 'par_reduce_dba N Sp centroids data degree', 'par_reduce_dba N Sp centroids (rev data) degree', 'the parallel strategy reads the data backwards', 'C84')
m('Clustering', 'nearest_loop', '|| nltb N d min', '|| nltb N min d', 'the farthest centroid is chosen', 'C82', 'C80')
# --- corrected programs
m('CtrlCode', 'loop_test', 'IIf CGo (model_code ++ [IGet GTest2]) []', 'IIf CGo [IRLock MModel; IGet GTest2; IRUnlock MModel] []', 'the loop reads the figures under the model mutex', 'C76')
m('CtrlCode', 'pause_call', '(IUnlock MStatus :: send_status (XValue Idle)', '([IUnlock MStatus; IGet (GErr None)]', 'Pause does not wait for the run', 'C62', 'C63', 'C77')
m('CtrlCode', 'interrupt_code', 'IUnlock MStatus :: send_status (XError (SrcConst e)) ++ [IGet GStatusErr]', '[IUnlock MStatus; IGet GStatusErr]', 'Stop does not wait for the run', 'C63', 'C77')
m('CtrlCode', 'notification_loop', 'match user with Some p => p | None => [] end', '[]', 'the notifier is not called', 'C61')
# --- copies, predictions, figures
m('Copy', 'kmeans_copy', "(bdata (ka_buffer a)) in", "(tl (bdata (ka_buffer a))) in", 'a copy loses the first element', 'C97')
m('Copy', 'kmeans_copy', "Ok (mkKmeansAlgo c (ka_par made) (ka_buffer made) seq0)", "Ok (mkKmeansAlgo c None (ka_buffer made) seq0)", 'a copy is always sequential', 'C95', 'C97')
m('Copy', 'kmeans_copy', "(ka_buffer made) seq0)", "(ka_buffer a) seq0)", 'the copy shares the buffer of the original', 'C95')
m('Copy', 'kmeans_copy', "let* made := kmeans_create (ka_conf a) ", "let* made := kmeans_create c ", 'corrected: the implementation is made with the configuration given', 'C95')
m('Copy', 'kmeans_copy', "Ok (mkKmeansAlgo c (ka_par made) (ka_buffer made) seq0)", "Ok (mkKmeansAlgo (ka_conf a) (ka_par made) (ka_buffer made) seq0)", 'the configuration given is ignored', 'C95')
m('Copy', 'kmeans_strategy', "if km_par c then Some (km_num_cpu c) else None", "Some (km_num_cpu c)", 'always parallel', 'C95')
m('Copy', 'streaming_copy', "(s_clust (sa_impl a)) in", "[] in", 'the centers are not copied', 'C96')
m('Copy', 'streaming_copy', "Ok (mkStreamingAlgo c (sa_impl_conf made) (sa_impl made) seq0)", "Ok (mkStreamingAlgo c (sa_impl_conf made) (sa_impl a) seq0)", 'corrected: the state is copied', 'C96')
m('Copy', 'streaming_copy', "Ok (mkStreamingAlgo c (sa_impl_conf made) (sa_impl made) seq0)", "Ok (mkStreamingAlgo c c (sa_impl made) seq0)", 'corrected: the implementation has the configuration given', 'C95')
m('Copy', 'streaming_copy', "let* c := core_new_algo (streaming_ops rgen0) c in", "let c := sa_conf a in", 'the configuration given is ignored', 'C95')
m('Copy', 'no_nil', "| None :: _ => Panic", "| None :: c' => no_nil c'", 'corrected: nil centroids are skipped', 'C98')
m('Copy', 'predict', "assign N Sp (match centroids with None => [] | Some c => c end) x", "assign N Sp (match centroids with None => [] | Some c => rev c end) x", 'index counted from the end', 'C98')
m('Copy', 'predict_opt', "(match centroids with None => [] | Some c => c end) in", "(match centroids with None => [None] | Some c => c end) in", 'Predict without centroids panics', 'C98')
m('Copy', 'ctrl_of', "mkCConf (cc_iter c) (cc_iter_per_data c)", "mkCConf (cc_iter c) (cc_data_per_iter c)", 'IterPerData and DataPerIter confused', 'C97')
m('SystemMcmc', 'mcmc_figures', '("rho"%string, to64 (f_rho f)); ("rGibbs"%string, to64 (f_rgibbs f))', '("rho"%string, to64 (f_rgibbs f)); ("rGibbs"%string, to64 (f_rho f))', 'two figures swapped', 'C99')
m('Mcmc', 'mcmc_init', '(mi_store m) (mi_acc m) (mi_lambda m) (mi_rho m) (mi_rgibbs m) time\n', '(mi_store m) 0 (mi_lambda m) (mi_rho m) (mi_rgibbs m) time\n', 'corrected: Init resets the acceptations', 'C99')
m('System', 'streaming_implem', 'IterRes c (Some [("maxDistance"%string, to64 (s_max s\'))]) None)', 'IterRes c (Some [("maxDistance"%string, to64 (s_max s))]) None)', 'the maximal distance before the iteration is published', 'C99')
m('CtrlLang', 'model_reset', 'let m := mkModel (m_centroids m) [] (m_new m) 0 0 0 0 in\n    mkModel (m_centroids m) (update_figures m [])', 'let m := mkModel (m_centroids m) (m_figs m) (m_new m) 0 0 0 0 in\n    mkModel (m_centroids m) (update_figures m (m_figs m))', 'the reset keeps old figures', 'C99')
m('CtrlLang', 'model_save', 'let rf := match rf with None => [] | Some rf => rf end in', 'let rf := match rf with None => m_figs m | Some rf => rf end in', 'figures kept when the implementation gives none', 'C99')
m('CtrlLang', 'model_reset', '[] (m_new m) 0 0 0 0 in', '[] (m_new m) (m_pushed m) 0 0 0 in', 'corrected: re-initialization keeps the count of pushed data', 'C89')
m('CtrlLang', 'model_save', '(m_pushed m) (m_iter m + 1)', '(m_pushed m) (m_iter m)', 'iterations are not counted', 'C57', 'C56')
m('Dtw', 'dtw_dba', 'Ok (pcombine a w1 b w2)) path', 'Ok (pcombine a (w1 - w2) b w2)) path', 'a weight may be negative', 'C69', 'C53')
m('Dtw', 'interp_step', 'pcombine a (v - x) b (x - va)', 'pcombine a (v - x) b (va - x)', 'a negative interpolation weight', 'C69', 'C51')
m('Dtw', 'dtw_combine', '  let* r := dtw_dba (fst s) (snd s) d w1 w2 in\n  points r.', '  let* r := dtw_dba (fst s) (snd s) d w1 w2 in\n  match r with x :: _ => points (rev r) | [] => points r end.', 'the average is reversed in time', 'C53')
# --- pace
m('Pace', 'period', 'b64_div (b64_of_Z 1000000000) freq', 'b64_mul (b64_of_Z 1000000000) freq', 'the period grows with the frequency', 'C100')
m('Pace', 'period', 'b64_of_Z 1000000000', 'b64_of_Z 1000000', 'the period is in microseconds', 'C100')
m('Pace', 'wake', 'now + (period - (now - last))', 'now + (period - (last - now))', 'sign of the elapsed time', 'C100')
m('Pace', 'wake', 'Z.max now (now + (period - (now - last)))', 'Z.max now last', 'the run does not sleep', 'C100')
m('Pace', 'turns', 'turns p (if 0 <? p then stop else last) stop ts', 'turns p last stop ts', 'the time of the last iteration is never updated', 'C100')
m('Pace', 'turns', 'turns p (if 0 <? p then stop else last) stop ts', 'turns p (if 0 <? p then start else last) stop ts', 'the period is counted from the start of the iteration', 'C100')
m('Pace', 'turns', 'clock <= t -> turns p last t ts -> turns p last clock (PReceived t :: ts)', 'clock <= t -> turns p t t ts -> turns p last clock (PReceived t :: ts)', 'a status received counts as an iteration', 'C100')
# --- one client and the goroutines
m('CtrlCode', 'play_call', '(IUnlock MStatus :: send_status (XValue Running))', '[IUnlock MStatus]', 'Play does not resume a paused run', 'C101')
m('CtrlCode', 'play_ready', '++ [IIf CConfTimeout [IStartTimer timer_code] []]', '', 'no timer is started', 'C101')
m('CtrlCode', 'play_ready', '++ [IIf CHasTimeout [IDisable] []] ++ model_code', '++ model_code', 'the timer of the previous run is not disabled', 'C101')
m('CtrlCode', 'wait_code', '++ status_code ++ [IGet GWaitErr]', '++ status_code', 'Wait drops the error of the status', 'C101')
m('CtrlCode', 'loop_body', '[IIf CGotIdle (send_ack ++ receive_status) []]', '[]', 'a paused run ends', 'C101', 'C102')
m('CtrlCode', 'recover_code', '++ [ITryAck [ICloseAck]; IUnlock MStatus]', '++ [IUnlock MStatus]', 'the end of a run is not acknowledged', 'C101', 'C102')
m('CtrlCode', 'batch_call', '(stop_call ++ [IGet (GErr None)])', '[IGet (GErr None)]', 'Batch does not stop the run', 'C101')
m('CtrlCode', 'init_common', '[IIf CErrNil (set_status (XValue Ready) false) (set_status (XError SrcErr) false)]', '(set_status (XValue Ready) false)', 'a failed Init is Ready', 'C101', 'C102')
m('CtrlSeq', 'start_seq', 'AtTest) (cf_timeout cf)', 'AtTest) (orb true (cf_timeout cf))', 'a timer without Timeout', 'C101')
m('CtrlSeq', 'play_seq', 'Some (q_runner (q_set q (new_status Running)) AtTest, None)', 'Some (q_runner (q_set q (new_status Running)) AtWait, None)', 'a resumed run waits', 'C101', 'C102')
m('CtrlSeq', 'interrupt', 'let q := end_run None now (q_set q fin) in Some', 'let q := q_set q fin in Some', 'Stop does not end the run', 'C101')
# --- theorems no other wrong program reaches
m('Euclid', 'combine_loop', 'ndiv N (nadd N (nmul N x w1) (nmul N y w2)) t', 'ndiv N (nadd N (nmul N x w2) (nmul N y w1)) t', 'weights swapped', 'C09')
m('Buffer', 'copy_buffer', 'new_data_buffer (bdata b) frame_size', 'new_data_buffer (bdata b ++ bpipe b) frame_size', 'corrected: the copy has the staged elements', 'C29')
m('Dtw', 'resize', '(map (fun i => i * (size - 1)) (zrange 0 (slen s - 1))) (slen s - 1)', '(map (fun i => i * (size - 1)) (zrange 0 (slen s - 1))) (Z.max 1 (slen s - 1))', 'corrected: one point is resized', 'C51')
m('Dtw', 'resize', 'i * (size - 1)', 'i * size', 'one point too many', 'C94')
m('Copy', 'streaming_copy', 'streaming_create (sa_conf a) (s_clust (sa_impl a))', 'streaming_create (sa_conf a) (firstn 1 (s_clust (sa_impl a)))', 'one center is copied', 'C96')
m('KmeansInit', 'check', 'if k <? 1 then', 'if k <? 0 then', 'k = 0 accepted', 'C39', 'C86', 'C91')
m('KmeansInit', 'given_loop', "given_loop n' (i + 1) elemts", "given_loop n' i elemts", 'k times the first element', 'C39', 'C86', 'C91')
m('KmeansInit', 'pp_initializer', 'pp_loop degree (Z.to_nat k - 1) 1 [c0] elemts rs', 'pp_loop degree (Z.to_nat k - 2) 1 [c0] elemts rs', 'the last centroid is nil', 'C39', 'C86', 'C91')
# --- exploration of one-client sessions
m('CtrlCode', 'interrupt_code', '[IIf (CStatus Idle) send', '[IIf (CStatus Idle) [IUnlock MStatus; IGet (GErr (Some ErrNotAlive))]', 'Stop of a paused run is refused', 'C104')
m('CtrlCode', 'wait_call', '[IIf (CNever f d) [IGet (GErr (Some ErrNeverFinish))] (wait_code f d)]', '(wait_code f d)', 'Wait on an endless run polls for ever', 'C103')
m('CtrlCode', 'push_call', '([ILock MModel; IModel MPushed] ++ status_code ++ [IModel MNewData; IModel MFigures; IUnlock MModel]', '([IModel MPushed] ++ status_code ++ [IModel MNewData; IModel MFigures]', 'Push updates the model without its mutex', 'C76', 'C67')
m('CtrlCode', 'run_end', '[IIf (CStatus Running) (set_status (XValue Ready) true) []]', '[]', 'the status stays Running at the end of the budget', 'C103')
m('CtrlCode', 'recover_code', '[IEndDefer; ILock MStatus; IIf CPanic (set_status (XError SrcPanic) false) []]\n    ++ [ILock MModel; IModel MDuration; IUnlock MModel]', '[IEndDefer; ILock MModel; IModel MDuration; IUnlock MModel]\n    ++ [ILock MStatus; IIf CPanic (set_status (XError SrcPanic) false) []]', 'corrected: the end of a run takes one mutex at a time', 'C60')
m('CtrlLang', 'wait_finishing', 'FStatus [Ready; Idle; Finished] true', 'FStatus [Ready; Idle; Finished; Running] true', 'Wait does not wait', 'C105')
m('CtrlCode', 'batch_call', '(wait_call None 0 ++ [IIf CErrNil (stop_call ++ [IGet (GErr None)]) []])', '(wait_call None 0)', 'Batch leaves the algorithm Ready', 'C105')
m('CtrlCode', 'play_ready', '[ISpawn KRunner run_code; IUnlock MStatus]', '[ISpawn KRunner run_code; ISpawn KRunner run_code; IUnlock MStatus]', 'Play starts two runs', 'C63')
m('CtrlCode', 'notification_loop', 'IRecv FldNotif :: model_code ++\n      match user with Some p => p | None => [] end', '[IRecv FldNotif; IRLock MModel] ++\n      match user with Some p => p | None => [] end ++ [IRUnlock MModel]', 'the notifier is called under the model mutex', 'C61')
m('CtrlLang', 'model_new_data', 'if status_eqb st Ready && (0 <? cf_dpi cf)%Z', 'if (0 <? cf_dpi cf)%Z', 'Push starts a run in any status', 'C75')
m('CtrlCode', 'pause_call', 'send_status (XValue Idle)', 'send_status (XValue Finished)', 'Pause stops the run', 'C62', 'C104')
m('CtrlCode', 'loop_body', 'IIf CGotIdle (send_ack ++ receive_status) []', 'IIf CGotIdle send_ack []', 'a paused run ends, with the status Idle', 'C62', 'C104')
m('CtrlCode', 'recover_code', '[ITryAck [ICloseAck]; IUnlock MStatus]', '[ITryAck [ICloseAck; ICloseAck]; IUnlock MStatus]', 'the ack channel is closed twice', 'C104', 'C67')
m('CtrlCode', 'loop_body', 'IIf CSaved [ILock MModel; IModel MSave; IUnlock MModel] []', 'IIf CSaved [IModel MSave] []', 'an iteration is saved without the model mutex', 'C76')
m('CtrlCode', 'run_end', '(set_status (XError SrcErr) true)', '(set_status (XValue Ready) true)', 'a failed run is Ready', 'C58', 'C105')
m('CtrlCode', 'wait_call', '[IIf (CVal Ready) []', '[IIf (CVal Ready) [IGet (GErr (Some ErrNotRunning))]', 'Wait on a run that is over is an error', 'C105')
m('CtrlCode', 'receive_status', 'IRecv FldStatus :: set_status XRecv true ++ send_ack', 'IRecv FldStatus :: send_ack ++ set_status XRecv true', 'a run acknowledges a status before it is set', 'C104')
m('CtrlCode', 'init_call', '[IGet (GErr None); ILock MStatus] ++ init_code', '[IGet (GErr None); ILock MStatus; ILock MModel; IUnlock MModel] ++ init_code', 'Init also waits for the model mutex', 'C103')
m('Spec/ExploreSpec', 'calm', '| DInit | DPlay | DPush => ~ stopped_idle before', '| DInit | DPlay => ~ stopped_idle before | DPush => True', 'sessions with a Push after the Stop of a paused run', 'C60')
m('Spec/ExploreSpec', 'calm', '| DInit | DPlay | DPush => ~ stopped_idle before', '| DInit | DPush => ~ stopped_idle before | DPlay => True', 'sessions with a Play after the Stop of a paused run', 'C104')
m('Spec/ExploreSpec', 'once_session', 'DPush | DBatch => ~ In DPlay before /\\ ~ In DBatch before', 'DPush | DBatch => ~ In DBatch before', 'sessions with a second call after Play', 'C105')
m('Spec/ExploreSpec', 'no_push_ready', 'fst (after before) <> Ready', 'fst (after before) <> Running', 'Push on a Ready algorithm', 'C75')
m('Spec/ExploreSpec', 'endless', 'cf_iter cf = 0%Z /\\ cf_ipd cf = 0%Z /\\ cf_fin cf = None /\\ cf_timeout cf = false /\\ (cf_dpi cf <= 0)%Z /\\ cf_notifier cf = None', 'cf_ipd cf = 0%Z /\\ cf_fin cf = None /\\ cf_timeout cf = false /\\ (cf_dpi cf <= 0)%Z /\\ cf_notifier cf = None', 'a budget of iterations', 'C103', 'C104')
# --- timer, race on the flag, second batch, accuracy of the distance
m('CtrlSeq', 'advance', 'let q := q_set_timer q false in\n          if q_locked q', 'let q := q_set_timer q true in\n          if q_locked q', 'a timer fires again', 'C78')
m('CtrlSeq', 'advance', 'interrupt (Some ErrTimeout) now q', 'interrupt None now q', 'a timeout leaves no error', 'C78')
m('LateDistrib', 'go_step', '| AtCheck => Some (l, if l_initialized l then AtUse else AtLock)', '| AtCheck => Some (l, if l_initialized l then AtUse else AtRecheck)', 'the lock is not taken', 'C70', 'C44')
m('LateDistrib', 'go_step', '| AtUnlock => Some (mkLate (l_initialized l) (l_distrib l) None (l_started l) (l_built l), AtUse)', '| AtUnlock => Some (mkLate false (l_distrib l) None (l_started l) (l_built l), AtUse)', 'the flag is reset by the unlock', 'C70', 'C44')
m('Euclid', 'sqsum_loop', 'nadd N sum (nmul N v v)', 'nadd N (nmul N v v) (nadd N sum (nmul N v v))', 'each square counted twice', 'C106')
m('Euclid', 'sqsum_loop', 'nadd N sum (nmul N v v)', 'nadd N sum (nmul N (nmul N v (nof N 3)) (ndiv N v (nof N 3)))', 'another rounding of the squares', 'C106')
m('Euclid', 'point_dist', 'Ok (nsqrt N sum)', 'Ok sum', 'the squared distance', 'C106', 'C10')
m('Euclid', 'point_dist', 'sqsum_loop p1 p2 (nof N 0)', 'sqsum_loop p1 p2 (ndiv N (nof N 1) (nof N 1000000))', 'the sum starts from 1e-6', 'C106', 'C10')
m('Spec/FloatSpec', 'rel_err', '(INR d + 4) * powerRZ 2 (-52)', '(INR d + 4) * powerRZ 2 (-54)', 'a bound too small', 'C106')
m('Spec/FloatSpec', 'abs_err', 'INR d * powerRZ 2 (-536)', 'INR d * powerRZ 2 (-600)', 'underflow neglected', 'C106')
# --- ownership of the published vectors, copies of MCMC
m('KmeansInit', 'given_loop', 'Ok (Some (scopy Sp e) :: r)', 'Ok (Some (fst (e, scopy Sp e)) :: r)', 'the given centers are not copied', 'C107')
m('KmeansInit', 'pp_iter', 'Ok (scopy Sp e, err)', 'Ok (e, err)', 'the drawn centers are not copied', 'C107')
m('KmeansInit', 'rand_loop', '(centroids ++ [scopy Sp e])', '(centroids ++ [fst (e, scopy Sp e)])', 'the random centers are not copied', 'C107')
m('Clustering', 'dba_add', 'sset means label (Some (scopy Sp elemt))', 'sset means label (Some elemt)', 'the first element of a mean is not copied', 'C107')
m('HeapVec', 'hpoint_combine', 'vset m\' r i (ndiv N', 'vset m\' a i (ndiv N', 'Combine writes to its first argument', 'C107')
m('HeapVec', 'hpoint_combine', 'Ok (m2, r).\n\n(** The builtin', 'Ok (m2, b).\n\n(** The builtin', 'Combine returns its second argument', 'C107')
m('HeapVec', 'hpoint_copy', 'let* m2 := vcopy m1 r a in\n  Ok (m2, r)', 'Ok (m, a)', 'Copy returns its argument', 'C107')
m('HeapVec', 'hseries_copy', 'Ok (fst q, snd p :: snd q)', 'Ok (fst q, a :: snd q)', 'the copy of a series shares its points', 'C107')
m('CopyMcmc', 'mcmc_copy', 'Ok (mkMcmcAlgo c (xa_strategy made) (xa_impl made) seq0)', 'Ok (mkMcmcAlgo c (xa_strategy made) (xa_impl a) seq0)', 'the copy keeps the state', 'C108')
m('CopyMcmc', 'mcmc_copy', 'mcmc_create (xa_conf a) (bdata (mi_buffer (xa_impl a)))', 'mcmc_create (xa_conf a) (tl (bdata (mi_buffer (xa_impl a))))', 'the copy loses an element', 'C108')
m('CopyMcmc', 'mcmc_copy', 'Ok (mkMcmcAlgo c (xa_strategy made)', 'Ok (mkMcmcAlgo (xa_conf made) (xa_strategy made)', 'the copy keeps the old configuration', 'C108')
m('CopyMcmc', 'mcmc_copy', 'let* made := mcmc_create (xa_conf a) (', 'let* made := mcmc_create c (', 'the implementation is made with the new configuration', 'C108')
m('CopyMcmc', 'mcmc_copy', '(xa_impl made) seq0)', '(xa_impl made) (xa_ctrl a))', 'the copy keeps the run of the original', 'C108')
m('CopyMcmc', 'mcmc_params', 'match xa_strategy a with Some n => n | None => 0 end', 'mc_num_cpu (xa_conf a)', 'the degree of Conf() instead of the one of the strategy', 'C108')
m('CopyMcmc', 'mcmc_create', '(mkMimpl b [] 0 z z z 0 0', '(mkMimpl b [] 1 z z z 0 0', 'the count of a new algorithm starts from 1', 'C108')
m('Clustering', 'dba_add', 'scombine Sp m n elemt 1', 'scombine Sp m n elemt 2', 'every element but the first counts twice in the mean', 'C85', 'C10')
# --- buffers in memory
m('HeapBuffer', 'new_hbuffer', '(copy_into m s (read m data), mkHBuffer [] s InfiniteSize)', '(m, mkHBuffer [] data InfiniteSize)', 'an unbounded buffer keeps the slice of the client', 'C109', 'C110')
m('HeapBuffer', 'new_hbuffer', '(copy_into m s (skipn (len - Z.to_nat size) (read m data)), mkHBuffer [] s (FixedSize size size))', '(m, mkHBuffer [] (mkSlice (sl_arr data) (Z.to_nat size)) (FixedSize size size))', 'a full frame is a part of the slice of the client', 'C109', 'C110')
m('HeapBuffer', 'new_hbuffer', '(copy_into m s (skipn (len - Z.to_nat size) (read m data))', '(copy_into m s (read m data)', 'a full frame keeps the oldest elements', 'C109')
m('HeapBuffer', 'hstrategy_push', 'let* m := Heap.store m data position x in Ok (FixedSize size (position + 1), m, data)', "let '(m, s) := append grow m data x in Ok (FixedSize size (position + 1), m, s)", 'a full frame grows', 'C109')
m('HeapBuffer', 'copy_into', 'firstn n src ++ skipn n (array m (sl_arr dst))', 'firstn n src', 'copy shrinks the array', 'C109')
m('HeapBuffer', 'hstrategy_push', "| InfiniteSize => let '(m, s) := append grow m data x in Ok (InfiniteSize, m, s)", "| InfiniteSize => let* m := Heap.store m data 0 x in Ok (InfiniteSize, m, data)", 'an unbounded buffer overwrites its first element', 'C109', 'C110')
m('Heap', 'append', '(m ++ [firstn (sl_len s) a ++ x :: repeat None (grow (sl_len s))], mkSlice (length m) (S (sl_len s)))', '(upd m (sl_arr s) (a ++ [x]), mkSlice (sl_arr s) (S (sl_len s) + 0 * grow (sl_len s)))', 'arrays grow in place', 'C38')
# --- parallel k-means in memory
m('HeapPar', 'hstart', '(m ++ [repeat None (sl_len c)], ws ++ [mkWorker (mkSlice (length m) (sl_len c))', '(m ++ [repeat None (sl_len c)], ws ++ [mkWorker (mkSlice (length m - length ws) (sl_len c))', 'the goroutines share one array', 'C111')
m('HeapPar', 'hstart', 'ws ++ [mkWorker (mkSlice (length m) (sl_len c))', 'ws ++ [mkWorker c', 'the goroutines write to the centroids', 'C111', 'C38')
m('HeapPar', 'worker_step', 'let* clust := elements (read m c) in', 'let* clust := elements (read m (w_dbas w)) in', 'the goroutines assign to the means under construction', 'C111')
m('HeapPar', 'worker_step', 'Ok (fst st, mkWorker (w_dbas w) (snd st) todo)', 'Ok (fst st, mkWorker (w_dbas w) (snd st) (w_todo w))', 'the goroutines process their first element for ever', 'C111')
m('HeapPar', 'par_step', 'upd (snd p) i (snd mw)', 'upd (snd p) 0 (snd mw)', 'the first goroutine gets the work of the others', 'C111')
m('HeapPar', 'hdba_combine', 'let* m := store m agg i od in', 'let* m := store m (w_dbas other) i od in', 'the aggregation writes to the part it reads', 'C111')
m('HeapPar', 'hdba_combine', 'let* m := store m agg i (Some (scombine Sp ad ci od oc)) in', 'let* m := store m agg i (Some (scombine Sp ad oc od ci)) in', 'the weights of the aggregation are exchanged', 'C111')
m('HeapPar', 'hbuild_result', 'let r := mkSlice (length m) (sl_len agg) in', 'let r := c in', 'the result is written to the centroids', 'C111', 'C38')
m('HeapPar', 'hbuild_result', 'let r := mkSlice (length m) (sl_len agg) in', 'let r := agg in', 'the result is written to the aggregate', 'C111')
m('HeapPar', 'hbuild_result', 'else let* d := sget (read m c) i in store m r i d', 'else Ok m', 'an empty cluster gets a nil centroid', 'C111')
m('HeapPar', 'hpar_join', 'let* st := ofold (hdba_combine (w_dbas w)) ws (m, w_cards w) in', 'let* st := ofold (hdba_combine (w_dbas w)) (w :: ws) (m, w_cards w) in', 'the first part is counted twice', 'C111')
# --- mcmc in memory
m('HeapMcmc', 'hpropose', 'Ok (halloc m altered, k)', 'Ok ((upd m (sl_arr s) (map Some altered ++ skipn (sl_len s) (array m (sl_arr s))), s), k)', 'alter writes to the centers it is given', 'C112')
m('HeapMcmc', 'hget_centers', 'let* c := del_center Sp prev del in Ok (halloc m c, None)', 'let* c := del_center Sp prev del in Ok (upd m (sl_arr clust) (map Some c ++ skipn (length c) (array m (sl_arr clust))), mkSlice (sl_arr clust) (length c), None)', 'a center is deleted in place', 'C112')
m('HeapMcmc', 'hstore_set', '(Z.of_nat (sl_len c), c) :: s', '(Z.of_nat (sl_len c) + 1, c) :: s', 'the store has the wrong number of centers', 'C112')
m('HeapMcmc', 'hmcmc_iterate', 'if ok then hp_centers prop else centroids, mkMfigures', 'centroids, mkMfigures', 'an accepted proposal is not published', 'C112')
m('HeapMcmc', 'hmcmc_iterate', 'if ok then hp_centers prop else centroids, mkMfigures', 'hp_centers prop, mkMfigures', 'a rejected proposal is published', 'C112')
m('HeapMcmc', 'hmcmc_iterate', '(if ok then prop else current),\n', 'current,\n', 'the current proposal does not change', 'C112')
m('HeapMcmc', 'hstrategy', 'then Some (hpar_join Sp m1 s ws) else None', 'then Some (hpar_join Sp m1 s ws) else Some (hpar_join Sp m1 s ws)', 'the goroutines are not awaited', 'C112')
m('HeapMcmc', 'hget_centers', '| Some c => Ok (m, c, None)', '| Some c => Ok (m, clust, None)', 'the store is not used', 'C112')
m('HeapMcmc', 'hstrategy', 'Some (hpar_join Sp m1 s ws)', 'Some (let* r := hpar_join Sp m1 s ws in let* l := elements (read (fst r) (snd r)) in Ok (upd (fst r) (sl_arr s) (map Some l), s))', 'the means are written to the altered centers', 'C112')
m('HeapMcmc', 'hmcmc_init', '(sdim Sp centroids) (mkHProposal (mp_init_k conf) s loss pdf), s, None)', '(sdim Sp centroids) (mkHProposal (mp_init_k conf) s loss pdf), mkSlice (sl_arr s) 0, None)', 'Init publishes an empty slice', 'C112')
# --- DTW in float64
m('Dtw', 'cell', 'Ok (nadd N (min3 ul u l) dist)', 'Ok (nadd N (min3 ul u l) (nadd N dist dist))', 'inner cells count twice', 'C113', 'C47')
m('Dtw', 'min3', 'if nleb N v1 v2 && nleb N v1 v3 then v1 else if nleb N v2 v3 then v2 else v3', 'if nleb N v1 v2 then v1 else if nleb N v2 v3 then v2 else v3', 'the last neighbour is forgotten', 'C113', 'C47')
m('Spec/FloatDtwSpec', 'dtw_rel', 'rel_err d + INR n * powerRZ 2 (-50)', 'rel_err d + INR n * powerRZ 2 (-56)', 'a bound too small', 'C113')
m('Spec/FloatDtwSpec', 'dtw_abs', '4 * INR n * abs_err d', '0 * INR n * abs_err d', 'underflow neglected', 'C113')
# --- total losses in float64
m('Clustering', 'loss_add', '(nadd N l (pow dist norm))', '(nadd N (nadd N l (pow dist norm)) (pow dist norm))', 'each loss counts twice', 'C114', 'C07')
m('Par', 'loss_aggregate_step', '(nadd N li pi)', '(nadd N li li)', 'a part of the losses is replaced by another', 'C114', 'C08')
m('Spec/FloatTotalSpec', 'loss_rel', '5 * rel_err d + INR n * powerRZ 2 (-51)', '0 * rel_err d + INR n * powerRZ 2 (-60)', 'a bound too small', 'C114')
m('Spec/FloatTotalSpec', 'loss_abs', '2 * INR n *', '0 * INR n *', 'underflow neglected', 'C114')
m('Spec/FloatTotalSpec', 'squares', 'is_finite y = true /\\ 0 <= B2R y', '0 <= B2R y', 'a power function that may return an infinity', 'C114')
# --- cosinus in float64
m('Cosinus', 'scalar_loop', '(nadd N product (nmul N x y))', '(nadd N product (nmul N x x))', 'the products are squares of the first vector', 'C115', 'C14')
m('Cosinus', 'norm', 'Ok (nsqrt N s)', 'Ok s', 'no square root', 'C115', 'C14')
m('Cosinus', 'cosinus', 'Ok (ndiv N (ndiv N s n1) n2)', 'Ok (ndiv N s n1)', 'only one norm divides', 'C115', 'C14')
m('Cosinus', 'cos_dist', 'nsub N (nof N 1) c', 'nsub N c (nof N 1)', 'the opposite distance', 'C115', 'C14')
m('Spec/FloatCosSpec', 'cos_err', '5 * (INR d + 3) * powerRZ 2 (-52)', '(INR d + 3) * powerRZ 2 (-60)', 'a bound too small', 'C115')
m('Spec/FloatCosSpec', 'cos_vec', 'powerRZ 2 (-400) <= exact_norm v', '0 < exact_norm v', 'tiny vectors', 'C115')
# --- replacement of M320
m('CtrlCode', 'init_call', '[IGet (GErr None); ILock MStatus] ++ init_code', '[IGet (GErr None); ILock MStatus; ILock MModel] ++ init_code', 'Init takes the model mutex and keeps it', 'C103')
# --- elements of different dimensions
m('Checked', 'knearest_loop', 'let* d := kdist K elemt c in', 'let* d := kdist K c elemt in', 'the arguments of Dist are swapped', 'C116')
m('Checked', 'kdba_add', 'let* r := kcombine K m n elemt 1 in', 'let* r := kcombine K elemt 1 m n in', 'the arguments of Combine are swapped', 'C116')
m('Checked', 'kdba_combine', '| None => ([], []) end in', '| None => agg end in', 'a missing part is replaced by the aggregate', 'C116')
m('Checked', 'kdba_aggregate', '| None => Ok part', '| None => match part with Some _ => Ok part | None => Panic end', 'a missing first part makes the join panic', 'C116')
m('Checked', 'pstep', 'pstep c (mkProcess gs m false) (mkProcess (upd gs i GPanic) m false)', 'pstep c (mkProcess gs m false) (mkProcess (upd gs i GPanic) m true)', 'the process ends with the panic, before wg.Done', 'C116')
m('Checked', 'pstep', 'In GPanic gs -> pstep c (mkProcess gs m false) (mkProcess gs m true)', 'In GPanic gs -> m <> None -> False -> pstep c (mkProcess gs m false) (mkProcess gs m true)', 'a goroutine that panics is recovered', 'C116')
m('Checked', 'pstep', 'pstep c (mkProcess gs m false) (mkProcess gs m true).', 'pstep c (mkProcess gs m false) (mkProcess gs (Some Panic) false).', 'the panic is handed to the caller of Par', 'C116')
m('Checked', 'kchecked_implem', '| _, _ => (b, IterPanic 0)', '| _, _ => (b, IterRes c None None)', 'a panicking iteration keeps the centroids', 'C116')
m('Checked', 'kprocess', '| Panic => (s, Panic)\n  | Ok (_, label, distance)', '| Panic => (add_outlier s x, Ok tt)\n  | Ok (_, label, distance)', 'an element of another dimension becomes an outlier', 'C117')
m('Checked', 'kstreaming_iterate', '(s, let* _ := r in Ok (Some (s_clust s)))', '(s, Ok (Some (s_clust s)))', 'the panic is swallowed', 'C117')
m('Checked', 'kupdate_center', 'let* r := kcombine K c n x 1 in', 'let* r := kcombine K x 1 c n in', 'the arguments of Combine are swapped', 'C117')
m('Checked', 'kstreaming_iterate', 'let (s, r) := kprocess (mkStreaming (s_max s) (s_clust s) (s_cards s) q (s_count s)) x threshold in', 'let (s, r) := match kprocess (mkStreaming (s_max s) (s_clust s) (s_cards s) q (s_count s)) x threshold with (_, Panic) => (s, Panic) | sr => sr end in', 'the element stays in the queue after a panic', 'C117')
# --- goroutines that share a buffer
m('RaceBuffer', 'tstep', 'if alive then go (PSend x) else go (PData KPush x)', 'if alive then go (PData KPush x) else go (PSend x)', 'pushes store while alive', 'C118')
m('RaceBuffer', 'tstep', 'if alive then go (PSend x) else go (PData KPush x)', 'go (PSend x)', 'every push is staged', 'C118')
m('RaceBuffer', 'tstep', 'Some (m, set_pipe b p, mkThread (PData KApply x) js)', 'Some (m, b, mkThread (PData KApply x) js)', 'a received element stays in the channel', 'C118')
m('RaceBuffer', 'tstep', '| PReset k x d => Some (m, set_position b 0,', '| PReset k x d => Some (m, b,', 'the position is not reset', 'C118')
m('RaceBuffer', 'tstep', '| PInc k d p => Some (m, set_position b (p + 1),', '| PInc k d p => Some (m, set_position b (position_of b + 1),', 'the increment is atomic', 'C118')
m('RaceBuffer', 'tstep', '| Panic => go PDead', '| Panic => go (PGrow k x d)', 'an index out of range appends', 'C118')
m('RaceBuffer', 'tstep', '| PStore k d => Some (m, set_data b d,', '| PStore k d => Some (m, (match k with KPush => set_data b d | KApply => b end),', 'Apply does not store the new slice', 'C118')
m('RaceBuffer', 'tstep', 'Some (m, set_pipe b (hb_pipe b ++ [x]), mkThread PReady (tl js)) else None', 'Some (m, set_pipe b (hb_pipe b ++ [x]), mkThread PReady (tl js)) else Some (m, b, mkThread PReady (tl js))', 'a push to a full channel returns without staging', 'C118')
m('RaceBuffer', 'tstep', '| KApply => mkThread PRecv js end', '| KApply => mkThread PReady (tl js) end', 'Apply stores at most one element', 'C118')
m('RaceBuffer', 'tstep', 'set_pipe b (hb_pipe b ++ [x])', 'set_pipe b (x :: hb_pipe b)', 'the channel is a stack', 'C118')
m('RaceBuffer', 'tstep', 'if position_of b =? size_of b then go (PReset k x d)', 'if size_of b <=? position_of b then go (PReset k x d)', 'a position beyond the size is reset', 'C118')
# --- cycles of float64 k-means
m('Euclid', 'combine_loop', 'ndiv N (nadd N (nmul N x w1) (nmul N y w2)) t', 'nadd N x (ndiv N (nmul N (nsub N y x) w2) t)', 'the mean is moved by the weighted difference', 'C119')
# --- MCMC that accepts nothing
m('Mcmc', 'accept', 'nltb N u rho.', 'negb (nleb N rho u).', 'the comparison of the draw is negated, so NaN accepts', 'C120')
m('MultivT', 'new_multivt', '(log (ndiv N (gamma power) (gamma (ndiv N nu (nof N 2)))))', '(nsub N (log (gamma (ndiv N nu (nof N 2)))) (log (gamma (ndiv N nu (nof N 2)))))', 'the gamma factor does not depend on the dimension', 'C120')
m('Mcmc', 'accept_figures', 'let l2b := log (nmul N (nof N 2) (mp_b conf)) in', 'let l2b := nmul N (nof N 2) (mp_b conf) in', 'the logarithm of 2B is left out', 'C120')
m('Mcmc', 'accept_figures', 'let rprop := nsub N (pr_pdf current) (pr_pdf prop) in', 'let rprop := nsub N (pr_pdf prop) (pr_pdf prop) in', 'the density of the current centers is replaced by that of the proposal', 'C120')
m('Mcmc', 'accept_figures', 'exp (nadd N (nadd N rgibbs rinit) rprop)', 'exp (nsub N (nadd N rgibbs rinit) (nof N 1))', 'the densities are replaced by a constant', 'C120')
# --- panics of the initializer
m('InitPanic', 'init_panics', '(IUnlock MStatus :: client_code cf cs)', '(client_code cf cs)', 'Init does not defer the unlock', 'C121')
m('InitPanic', 'init_panics', '(IUnlock MStatus :: client_code cf cs)', '(set_status (XError SrcErr) false ++ IUnlock MStatus :: client_code cf cs)', 'Init sets the status to Finished when it panics', 'C121')
m('InitPanic', 'play_panics', 'mkRw HLeaked', 'mkRw HFree', 'Play defers the unlock', 'C121')
m('CtrlCode', 'push_call', 'IGet (GErr None) :: status_code ++\n    [IImplPush;', 'IGet (GErr None) :: [IRLock MStatus; IGet GStatus] ++\n    [IImplPush; IRUnlock MStatus;', 'impl.Push is called with the status mutex locked for reading', 'C121')
m('CtrlCode', 'play_call', '[ILeak MStatus]]]]]].', '[IUnlock MStatus; IGet (GErr (Some ErrNotRunning))]]]]]].', 'Play of an initializing algorithm unlocks and returns an error', 'C121')
m('CtrlCode', 'play_call', '[ILeak MStatus]]]]]].', 'play_ready]]]]].', 'Play of an initializing algorithm starts a run', 'C121')
# --- maps of figures in memory
m('FigMap', 'fig_step', 'store_counters (mkFig (fg_maps st) (fg_cur st) (fg_iter st) (fg_pushed st + 1) (fg_duration st) now)', 'store_counters (let s := mkFig (fg_maps st) (fg_cur st) (fg_iter st) (fg_pushed st + 1) (fg_duration st) now in new_map s (map_at s (fg_cur s)))', 'Push writes to a copy of the map', 'C122')
m('FigMap', 'new_map', 'mkFig (fg_maps st ++ [rf]) (List.length (fg_maps st))', 'mkFig (upd (fg_maps st) (fg_cur st) rf) (fg_cur st)', 'a new map takes the place of the current one', 'C122')
m('FigMap', 'store_counters', 'let st := write st (fg_cur st) "pushedData" (b64_of_Z (fg_pushed st)) in', '', 'pushedData is not stored', 'C122')
m('FigMap', 'fig_step', '| OpReset => store_counters (new_map (mkFig (fg_maps st) (fg_cur st) 0 0 0 0) [])', '| OpReset => store_counters (mkFig (fg_maps st) (fg_cur st) 0 0 0 0)', 'Init keeps the map', 'C122')
m('FigMap', 'fig_step', '| OpClient p key v => write st p key v', '| OpClient p key v => st', 'the client cannot write', 'C122')
m('FigMap', 'fig_step', 'write st (fg_cur st) "duration" (b64_of_Z (fg_duration st))\n', 'write st 0 "duration" (b64_of_Z (fg_duration st))\n', 'the end of a run writes to the first map', 'C122')
# --- rest of float64 k-means
m('Euclid', 'combine_loop', 'ndiv N (nadd N (nmul N x w1) (nmul N y w2)) t', 'nmul N (nadd N (nmul N x w1) (nmul N y w2)) (ndiv N (nof N 1) t)', 'the sum is multiplied by the rounded inverse of the weights', 'C119')
m('Euclid', 'combine_loop', 'ndiv N (nadd N (nmul N x w1) (nmul N y w2)) t', 'ndiv N (nadd N (nadd N (nof N 0) (nmul N x w1)) (nmul N y w2)) t', 'the sum starts from zero, which loses the sign of a negative zero', 'C119')
# --- generators shared by algorithms
m('Generators', 'gstep', 'mkPointers p (pt_conf (ga_pt a)) (pt_law (ga_pt a))', 'mkPointers p p (pt_law (ga_pt a))', 'the implementation of a copy uses the generator given to the copy', 'C123')
m('Generators', 'gstep', 'mkPointers p (pt_conf (ga_pt a)) (pt_law (ga_pt a))', 'mkPointers (length l) (pt_conf (ga_pt a)) (pt_law (ga_pt a))', 'a copy gets a new generator for its configuration', 'C123')
m('Generators', 'gkmeans', 'initializer (pt_conf pt) k (bdata b) in\n     gret (b, fst r, snd r)', 'initializer 0%nat k (bdata b) in\n     gret (b, fst r, snd r)', 'k-means is initialized with one global generator', 'C123')
m('Generators', 'gmcmc_draws', 'let+ u := gfloat (pt_impl pt) in', 'let+ u := gfloat 0 in', 'the acceptance uses one global generator', 'C123')
m('Generators', 'gmcmc_draws', 'let+ u := gfloat (pt_impl pt) in', 'let+ u := gret (nof N 0) in', 'the acceptance draws nothing', 'C123')
m('Generators', 'gintn', 'let \'(x, s) := g_intn gen n (m p) in Ok (x, gset m p s)', 'let \'(x, s) := g_intn gen n (m p) in Ok (x, m)', 'Intn does not change the generator', 'C123')
m('Generators', 'gkmeans', 'let+ r := glift (strategy_iterate N Sp par c (bdata b)) in', 'let+ s := initializer (pt_conf pt) k (bdata b) in\n     let+ r := glift (strategy_iterate N Sp par c (bdata b)) in', 'an iteration of k-means draws as an initialization does', 'C123')
m('Generators', 'gset', 'if Nat.eqb q p then s else m q', 'if Nat.leb q p then s else m q', 'a draw changes other generators', 'C123')
m('Generators', 'gmcmc', 'gret (fst r))', 'gret (fst (fst r), c))', 'an iteration returns the previous centroids', 'C123')
m('Generators', 'gdraw', 'if neqb N (weights_sum N weights) (nof N 0) then gret (nof N 0) else gfloat p', 'if neqb N (weights_sum N weights) (nof N 0) then gret (nof N 0) else let+ r := gfloat p in gret (nof N 0)', 'the weighted choice takes a number and ignores it', 'C123')
m('GenStreaming', 'draws_threshold', 'Ok (negb ((out_after <=? s_count s) && nltb N out_ratio relative))', 'Ok (negb (out_after <=? s_count s))', 'no threshold is drawn after OutAfter elements', 'C123')
m('GenStreaming', 'draws_threshold', 'Ok (negb ((out_after <=? s_count s) && nltb N out_ratio relative))', 'Ok true', 'a threshold is drawn for outliers too', 'C123')
m('GenStreaming', 'gstreaming_iterate', 'glaw gen (pt_impl pt)', 'glaw gen (pt_conf pt)', 'thresholds come from the generator of the current configuration', 'C123')
m('GenStreaming', 'gstreaming_iterate', 'glaw gen (pt_impl pt)', 'glaw gen 0', 'thresholds come from one global generator', 'C123')
m('GenStreaming', 'gstreaming_iterate', 'Some c\' => c\' | None => c end', 'Some c\' => c\' | None => [] end', 'an iteration without element clears the centroids', 'C123')
m('GenStreaming', 'gstreaming', 'new_streaming N (s_clust s)', 'new_streaming N (s_queue s)', 'a copy takes the waiting elements instead of the centers', 'C123')
m('GenStreaming', 'gstreaming', 'fst (streaming_push buffer_size s x)', 's', 'a push is lost', 'C123')
json.dump(L, open(sys.argv[1], 'w'), indent=0)
print(len(L))
import collections
c = collections.Counter(x for l in L for x in l['claims'])
print([ 'C%02d' % i for i in range(1, 124) if c['C%02d' % i] == 0])
