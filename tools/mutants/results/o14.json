{
 "id": "o14",
 "failed": [
  "C59_completed_chunks_partial"
 ],
 "proofs": [
  "chunk_on_disk"
 ],
 "dropped": [],
 "err": null,
 "unfailed_claims": []
}