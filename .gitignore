*.vo
*.vok
*.vos
*.glob
*.aux
__pycache__

*.cache
.*.cache
