{
 "M046": {
  "theorems": [
   "C93_dimension",
   "C93_ratio"
  ],
  "note": "added: the dimension of the data enters the acceptance ratio"
 },
 "M173": {
  "theorems": [
   "C57_saved_once"
  ],
  "note": "added: between an iteration and its save nothing happens and no save lacks an iteration"
 },
 "M178": {
  "theorems": [
   "C58_failures"
  ],
  "note": "added: the run sets the error as soon as an iteration failed, without a crash"
 },
 "M188": {
  "theorems": [
   "C58_failures"
  ],
  "note": "added: the run sets the error as soon as an iteration failed, without a crash"
 },
 "M186": {
  "theorems": [
   "C56_tested"
  ],
  "note": "added: every iteration comes right after a test of the condition the configuration asks for"
 },
 "M239": {
  "theorems": [
   "C99_iteration_partial",
   "C99_mcmc_partial"
  ],
  "note": "added: the values of the published figures"
 },
 "M240": {
  "theorems": [
   "C99_iteration_partial",
   "C99_mcmc_partial"
  ],
  "note": "added: the values of the published figures"
 },
 "M265": {
  "theorems": [
   "C98_values_partial"
  ],
  "note": "added: without nil centroids the search is the usual one"
 },
 "M266": {
  "theorems": [
   "C97_batch"
  ],
  "note": "hypotheses stated by the fields of the configuration instead of ctrl_of"
 },
 "M349": {
  "theorems": [
   "C108_mixed_partial"
  ],
  "note": "added: which settings of the configuration given to Copy the copy uses, with the degree of its strategy"
 },
 "M320": {
  "theorems": [],
  "note": "the edit breaks no claim: Init waits for the model mutex with the status mutex held and releases it at once, as run does; M395 keeps it"
 },
 "M398": {
  "theorems": [
   "C116_missing_partial"
  ],
  "note": "added: the caller skips the missing parts that come first and panics at a later one"
 },
 "M412": {
  "theorems": [
   "C118_position_refuted"
  ],
  "note": "added: a late increment takes the position of the frame back"
 },
 "M441": {
  "theorems": [
   "C123_kmeans_apart_partial"
  ],
  "note": "survived at first: no theorem spoke of initializing k-means algorithms with generators of their own"
 },
 "M443": {
  "theorems": [
   "C123_draws_partial"
  ],
  "note": "only a proof failed at first: the theorem now says from which generator the acceptance is drawn"
 },
 "M450": {
  "theorems": [
   "C123_stream_draws_partial"
  ],
  "note": "would have survived the first statement: it now says that an outlier draws nothing"
 },
 "M454": {
  "theorems": [
   "C123_stream_refuted"
  ],
  "note": "would have survived the first statement: it now gives the centroids of the copy too"
 }
}