{
 "id": "r26",
 "failed": [
  "C120_meshed_targets"
 ],
 "proofs": [
  "cell_good"
 ],
 "dropped": [],
 "err": null,
 "unfailed_claims": []
}