__pycache__
.*.cache
